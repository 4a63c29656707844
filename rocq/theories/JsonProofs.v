From Coq Require Import NArith.
From Verif Require Import Base JsonModel.

Section Ind.
Context (P : json -> Prop) (H0 : P JNull) (H1 : forall b, P (JBool b)) (H2 : forall t, P (JNum t)) (H3 : forall s, P (JStr s))
  (H4 : forall l, Forall P l -> P (JArr l)) (H5 : forall l, Forall (fun kv => P (snd kv)) l -> P (JObj l)).
Fixpoint json_ind' (j : json) : P j :=
  match j with
  | JNull => H0 | JBool b => H1 b | JNum t => H2 t | JStr s => H3 s
  | JArr l => H4 l ((fix go l : Forall P l := match l with [] => Forall_nil _ | x :: l' => Forall_cons _ (json_ind' x) (go l') end) l)
  | JObj l => H5 l ((fix go l : Forall (fun kv => P (snd kv)) l :=
      match l with [] => Forall_nil _ | x :: l' => Forall_cons _ (json_ind' (snd x)) (go l') end) l)
  end.
End Ind.

(* Number texts that are read back. *)
Definition num_ok (t : bytes) : Prop :=
  is_number t = true /\ exists c t', t = c :: t' /\ (is_digit c || Nat.eqb c 45) = true /\ Forall (fun b => is_num b = true) t'.

Fixpoint json_ok (j : json) : Prop :=
  match j with
  | JNum t => num_ok t
  | JArr l => (fix go l := match l with [] => True | x :: l' => json_ok x /\ go l' end) l
  | JObj l => (fix go l := match l with [] => True | x :: l' => json_ok (snd x) /\ go l' end) l
  | _ => True
  end.

(* Nesting of arrays and objects. *)
Fixpoint nesting (j : json) : nat :=
  match j with
  | JArr l => S (fold_right (fun x m => Nat.max (nesting x) m) 0 l)
  | JObj l => S (fold_right (fun x m => Nat.max (nesting (snd x)) m) 0 l)
  | _ => 0
  end.

Lemma json_ok_arr l : json_ok (JArr l) <-> Forall json_ok l.
Proof. simpl. induction l as [|x l IH]; split; intros H; auto; [constructor; tauto|inversion H; tauto]. Qed.
Lemma json_ok_obj l : json_ok (JObj l) <-> Forall (fun kv => json_ok (snd kv)) l.
Proof. simpl. induction l as [|x l IH]; split; intros H; auto; [constructor; tauto|inversion H; tauto]. Qed.

Lemma nesting_arr l x : In x l -> nesting x < nesting (JArr l).
Proof. simpl. induction l as [|y l IH]; simpl; [tauto|]. intros [->|H]; [lia|]. specialize (IH H). lia. Qed.
Lemma nesting_obj l kv : In kv l -> nesting (snd kv) < nesting (JObj l).
Proof. simpl. induction l as [|y l IH]; simpl; [tauto|]. intros [->|H]; [lia|]. specialize (IH H). lia. Qed.

(* ---- strings ---- *)

Lemma hex_val_digit n : n < 16 -> hex_val (hex_digit n) = Some n.
Proof. intros H. do 16 (destruct n as [|n]; [reflexivity|]). lia. Qed.

Lemma read_unicode_split b n r : read_unicode b = Some (n, r) ->
  (exists h1 h2 h3 h4, b = h1 :: h2 :: h3 :: h4 :: r /\ hex4 h1 h2 h3 h4 = Some n /\ (n < 55296 \/ 57344 <= n)%N) \/
  (exists h1 h2 h3 h4 g1 g2 g3 g4 n1 n2, b = h1 :: h2 :: h3 :: h4 :: 92 :: 117 :: g1 :: g2 :: g3 :: g4 :: r /\
     hex4 h1 h2 h3 h4 = Some n1 /\ hex4 g1 g2 g3 g4 = Some n2 /\ (55296 <= n1 < 56320)%N /\ (56320 <= n2 < 57344)%N /\
     n = (65536 + (n1 - 55296) * 1024 + (n2 - 56320))%N).
Proof.
  unfold read_unicode. destruct b as [|h1 [|h2 [|h3 [|h4 b]]]]; try discriminate. destruct (hex4 h1 h2 h3 h4) as [n1|] eqn:E1; [|discriminate].
  destruct (N.ltb_spec n1 55296) as [L1|L1]; cbn [orb]. { intros H. injection H as <- <-. left. exists h1, h2, h3, h4. auto. }
  destruct (N.leb_spec 57344 n1) as [L2|L2]. { intros H. injection H as <- <-. left. exists h1, h2, h3, h4. auto. }
  destruct (N.ltb_spec n1 56320) as [L3|L3]; [|discriminate]. destruct b as [|c1 [|c2 [|g1 [|g2 [|g3 [|g4 b]]]]]]; try discriminate.
  destruct (Nat.eqb_spec c1 92) as [->|]; [|discriminate]. destruct (Nat.eqb_spec c2 117) as [->|]; [|discriminate]. cbn [andb].
  destruct (hex4 g1 g2 g3 g4) as [n2|] eqn:E2; [|discriminate].
  destruct (N.leb_spec 56320 n2) as [L4|L4]; [|discriminate]. destruct (N.ltb_spec n2 57344) as [L5|L5]; [|discriminate]. cbn [andb].
  remember (65536 + (n1 - 55296) * 1024 + (n2 - 56320))%N as q eqn:Q. intros H. injection H as <- <-. right. exists h1, h2, h3, h4, g1, g2, g3, g4, n1, n2. repeat split; assumption.
Qed.
Lemma read_unicode_length b n r : read_unicode b = Some (n, r) -> length r < length b.
Proof.
  intros H. apply read_unicode_split in H as [(h1 & h2 & h3 & h4 & -> & _)|(h1 & h2 & h3 & h4 & g1 & g2 & g3 & g4 & n1 & n2 & -> & _)]; cbn [length]; lia.
Qed.
Lemma read_fuel : forall n b, length b <= n -> read_chars_of n b = read_str b.
Proof.
  assert (G : forall n m b, length b <= n -> length b <= m -> read_chars_of n b = read_chars_of m b).
  { induction n as [|n IH]; intros [|m] [|c b] Ln Lm; cbn [length] in *; try lia; try reflexivity. cbn [read_chars_of].
    destruct (Nat.eqb c 34); [reflexivity|]. destruct (Nat.eqb c 92).
    - destruct b as [|e b]; [reflexivity|]. cbn [length] in *. destruct (Nat.eqb e 117).
      + destruct (read_unicode b) as [[x b3]|] eqn:U; [|reflexivity]. apply read_unicode_length in U. rewrite (IH m b3) by lia. reflexivity.
      + rewrite (IH m b) by lia. reflexivity.
    - rewrite (IH m b) by lia. reflexivity. }
  intros n b L. unfold read_str. apply G; lia.
Qed.
Lemma read_str_eq b : read_str b =
  match b with
  | [] => None
  | c :: b1 =>
      if Nat.eqb c 34 then Some ([], b1)
      else if Nat.eqb c 92 then
        match b1 with
        | [] => None
        | e :: b2 =>
            if Nat.eqb e 117 then
              match read_unicode b2 with
              | Some (n, b3) => match read_str b3 with Some (s, r) => Some (utf8 n ++ s, r) | None => None end
              | None => None
              end
            else match unescape e with
                 | Some x => match read_str b2 with Some (s, r) => Some (x :: s, r) | None => None end
                 | None => None
                 end
        end
      else if Nat.ltb c 32 then None
      else match read_str b1 with Some (s, r) => Some (c :: s, r) | None => None end
  end.
Proof.
  destruct b as [|c b]; [reflexivity|]. unfold read_str at 1. cbn [length read_chars_of]. destruct (Nat.eqb c 34); [reflexivity|]. destruct (Nat.eqb c 92).
  - destruct b as [|e b]; [reflexivity|]. destruct (Nat.eqb e 117).
    + destruct (read_unicode b) as [[x b3]|] eqn:U; [|reflexivity]. apply read_unicode_length in U. rewrite read_fuel by (cbn [length]; lia). reflexivity.
    + rewrite read_fuel by (cbn [length]; lia). reflexivity.
  - rewrite read_fuel by lia. reflexivity.
Qed.

Lemma read_str_esc b s r rest : read_str rest = Some (s, r) -> read_str (esc b ++ rest) = Some (b :: s, r).
Proof.
  intros H. unfold esc.
  repeat match goal with |- context [Nat.eqb b ?n] => destruct (Nat.eqb_spec b n) as [->|]; [rewrite read_str_eq; cbn [app]; cbn -[read_str]; now rewrite H|] end.
  destruct (Nat.ltb_spec b 32).
  - assert (X : b / 16 < 2) by (apply Nat.div_lt_upper_bound; lia).
    assert (Y : b mod 16 < 16) by (apply Nat.mod_upper_bound; lia).
    assert (E : b = 16 * (b / 16) + b mod 16) by (apply Nat.div_mod; lia).
    generalize dependent (b mod 16). generalize dependent (b / 16). intros x X y Y E.
    rewrite read_str_eq. cbn [app]. change (Nat.eqb 92 34) with false. change (Nat.eqb 92 92) with true. change (Nat.eqb 117 117) with true. cbn iota.
    unfold read_unicode, hex4. rewrite (hex_val_digit x) by lia. rewrite (hex_val_digit y) by lia. change (hex_val 48) with (Some 0). cbn iota.
    set (u := (4096 * N.of_nat 0 + 256 * N.of_nat 0 + 16 * N.of_nat x + N.of_nat y)%N). assert (B : u = N.of_nat b) by lia.
    destruct (N.ltb_spec u 55296); [|lia]. cbn [orb]. rewrite H. unfold utf8. destruct (N.ltb_spec u 128); [|lia]. rewrite B, Nat2N.id. reflexivity.
  - rewrite read_str_eq. cbn [app]. destruct (Nat.eqb_spec b 34); [lia|]. destruct (Nat.eqb_spec b 92); [lia|].
    destruct (Nat.ltb_spec b 32); [lia|]. now rewrite H.
Qed.

Lemma read_write_str s rest : read_str (flat_map esc s ++ c_quote :: rest) = Some (s, rest).
Proof.
  induction s as [|b s IH]; simpl; auto. rewrite <- app_assoc. now apply read_str_esc.
Qed.

(* ---- numbers and literals ---- *)

Definition no_num (r : bytes) : Prop := match r with c :: _ => is_num c = false | [] => True end.

Lemma span_num_app t rest : Forall (fun b => is_num b = true) t -> no_num rest -> span_num (t ++ rest) = (t, rest).
Proof.
  intros H R. induction H as [|c t Hc Ht IH]; simpl.
  - destruct rest as [|c r]; auto. simpl in R. simpl. now rewrite R.
  - now rewrite Hc, IH.
Qed.

Lemma num_not_ws c : (is_digit c || Nat.eqb c 45) = true -> is_ws c = false.
Proof.
  unfold is_digit, is_ws. rewrite orb_true_iff, andb_true_iff, Nat.leb_le, Nat.leb_le, Nat.eqb_eq.
  intros H. repeat (destruct (Nat.eqb_spec c _) as [->|]; [lia|]). 
  destruct (Nat.eqb_spec c 32), (Nat.eqb_spec c 9), (Nat.eqb_spec c 10), (Nat.eqb_spec c 13); simpl; lia.
Qed.

Lemma write_start j : json_ok j -> exists c t, write j = c :: t /\ is_ws c = false.
Proof.
  destruct j as [|[|]|t|s|l|l]; intros H; simpl; try (eexists _, _; split; reflexivity).
  destruct H as (_ & c & t' & -> & Hc & _). exists c, t'. split; auto. now apply num_not_ws.
Qed.

Lemma skip_start j r : json_ok j -> skip_ws (write j ++ r) = write j ++ r.
Proof. intros H. destruct (write_start j H) as (c & t & -> & E). simpl. now rewrite E. Qed.

Lemma sep_cons x y l : sep (x :: y :: l) = x ++ c_comma :: sep (y :: l).
Proof. reflexivity. Qed.

Section Loop.
Context (rv : bytes -> option (json * bytes)).

Lemma read_elems_ok l : l <> [] ->
  Forall (fun v => forall rest, no_num rest -> rv (write v ++ rest) = Some (v, rest)) l ->
  forall fuel rest, length l <= fuel -> read_elems rv fuel (sep (map write l) ++ c_rbrack :: rest) = Some (l, rest).
Proof.
  induction l as [|v l IH]; [congruence|]. intros _ H. inversion H as [|? ? Hv Hl]; subst.
  intros [|fuel] rest F; [simpl in F; lia|]. destruct l as [|v2 l].
  - simpl. rewrite Hv by reflexivity. reflexivity.
  - cbn [map]. rewrite sep_cons, <- app_assoc. cbn [read_elems]. rewrite Hv by reflexivity.
    change (skip_ws ((c_comma :: sep (write v2 :: map write l)) ++ c_rbrack :: rest))
      with (c_comma :: sep (write v2 :: map write l) ++ c_rbrack :: rest). cbn iota.
    change (Nat.eqb c_comma c_rbrack) with false. change (Nat.eqb c_comma c_comma) with true. cbn iota.
    change (write v2 :: map write l) with (map write (v2 :: l)).
    rewrite IH; [reflexivity|congruence|auto|simpl in *; lia].
Qed.

Definition write_member (kv : bytes * json) : bytes := let '(k, v) := kv in write_str k ++ c_colon :: write v.

Lemma write_member_app k v r : write_member (k, v) ++ r = c_quote :: flat_map esc k ++ c_quote :: c_colon :: write v ++ r.
Proof. simpl. unfold write_str. repeat (rewrite <- ?app_assoc; simpl). reflexivity. Qed.

Lemma read_members_ok l : l <> [] ->
  Forall (fun kv => forall rest, no_num rest -> rv (write (snd kv) ++ rest) = Some (snd kv, rest)) l ->
  forall fuel rest, length l <= fuel -> read_members rv fuel (sep (map write_member l) ++ c_rbrace :: rest) = Some (l, rest).
Proof.
  induction l as [|[k v] l IH]; [congruence|]. intros _ H. inversion H as [|? ? Hv Hl]; subst. simpl in Hv.
  intros [|fuel] rest F; [simpl in F; lia|]. destruct l as [|kv2 l].
  - cbn [map sep]. rewrite write_member_app.
    cbn [read_members skip_ws]. change (is_ws c_quote) with false. cbn iota.
    change (Nat.eqb c_quote c_quote) with true. cbn iota.
    rewrite read_write_str. cbn [skip_ws]. change (is_ws c_colon) with false. cbn iota.
    change (Nat.eqb c_colon c_colon) with true. cbn iota. rewrite Hv by reflexivity. reflexivity.
  - cbn [map]. rewrite sep_cons, <- app_assoc, write_member_app.
    cbn [read_members skip_ws]. change (is_ws c_quote) with false. cbn iota.
    change (Nat.eqb c_quote c_quote) with true. cbn iota.
    rewrite read_write_str. cbn [skip_ws]. change (is_ws c_colon) with false. cbn iota.
    change (Nat.eqb c_colon c_colon) with true. cbn iota. rewrite Hv by reflexivity.
    cbn [app skip_ws]. change (is_ws c_comma) with false. cbn iota.
    change (Nat.eqb c_comma c_rbrace) with false. change (Nat.eqb c_comma c_comma) with true. cbn iota.
    change (write_member kv2 :: map write_member l) with (map write_member (kv2 :: l)).
    rewrite IH; [reflexivity|congruence|auto|simpl in *; lia].
Qed.
End Loop.

Lemma sep_length l : Forall (fun x : bytes => x <> []) l -> length l <= length (sep l).
Proof.
  induction l as [|x l IH]; intros H; [simpl; lia|]. inversion H as [|? ? Hx Hl]; subst. specialize (IH Hl).
  destruct l as [|y l]; [simpl; destruct x; simpl; [congruence|lia]|].
  rewrite sep_cons, app_length. simpl in *. lia.
Qed.

Lemma write_obj l : write (JObj l) = c_lbrace :: sep (map write_member l) ++ [c_rbrace].
Proof. reflexivity. Qed.

Lemma sep_start_ws (l : list bytes) r : l <> [] -> Forall (fun x => exists c t, x = c :: t /\ is_ws c = false) l ->
  exists c t, sep l ++ r = c :: t /\ is_ws c = false /\ exists x l', l = (c :: x) :: l'.
Proof.
  destruct l as [|x l]; [congruence|]. intros _ H. inversion H as [|? ? (c & t & -> & E) _]; subst.
  destruct l; simpl; eauto 10.
Qed.

Lemma read_value_arr d b : read_value (S (S d)) (c_lbrack :: b) =
  match skip_ws b with
  | x :: b2 => if Nat.eqb x c_rbrack then Some (JArr [], b2)
               else match read_elems (read_value (S d)) (length b) b with
                    | Some (l, r) => Some (JArr l, r) | None => None end
  | [] => None
  end.
Proof. reflexivity. Qed.
Lemma read_value_obj d b : read_value (S (S d)) (c_lbrace :: b) =
  match skip_ws b with
  | x :: b2 => if Nat.eqb x c_rbrace then Some (JObj [], b2)
               else match read_members (read_value (S d)) (length b) b with
                    | Some (l, r) => Some (JObj l, r) | None => None end
  | [] => None
  end.
Proof. reflexivity. Qed.

Lemma read_write j : json_ok j -> forall d rest, nesting j < d -> no_num rest ->
  read_value d (write j ++ rest) = Some (j, rest).
Proof.
  induction j as [|b|t|s|l IH|l IH] using json_ind'; intros OK d rest D R.
  - destruct d; reflexivity.
  - destruct d, b; reflexivity.
  - destruct OK as (ON & c & t' & -> & Hc & Ht). assert (X : read_value d ((c :: t') ++ rest) = let '(t, r) := span_num (t' ++ rest) in if is_number (c :: t) then Some (JNum (c :: t), r) else None).
    { pose proof (num_not_ws c Hc) as W.
      assert (C : 48 <= c <= 57 \/ c = 45).
      { unfold is_digit in Hc. rewrite orb_true_iff, andb_true_iff, !Nat.leb_le, Nat.eqb_eq in Hc. lia. }
      assert (N1 : Nat.eqb c c_quote = false) by (apply Nat.eqb_neq; unfold c_quote; lia).
      assert (N2 : Nat.eqb c c_lbrack = false) by (apply Nat.eqb_neq; unfold c_lbrack; lia).
      assert (N3 : Nat.eqb c c_lbrace = false) by (apply Nat.eqb_neq; unfold c_lbrace; lia).
      destruct d; cbn [app read_value skip_ws]; rewrite W, N1, N2, N3, Hc; reflexivity. }
    simpl write. rewrite X, span_num_app; auto. now rewrite ON.
  - simpl write. unfold write_str. rewrite <- app_comm_cons, <- app_assoc.
    destruct d; cbn [read_value skip_ws]; change (is_ws c_quote) with false; cbn iota;
      change (Nat.eqb c_quote c_quote) with true; cbn iota; cbn [app]; now rewrite read_write_str.
  - apply json_ok_arr in OK. destruct d as [|d]; [lia|]. destruct d as [|d]; [simpl in D; lia|].
    cbn [write]. rewrite <- app_comm_cons, <- app_assoc. cbn [app].
    rewrite read_value_arr.
    destruct l as [|x l]; [reflexivity|].
    assert (S : Forall (fun x => exists c t, x = c :: t /\ is_ws c = false) (map write (x :: l))).
    { apply Forall_map. eapply Forall_impl; [|exact OK]. intros; now apply write_start. }
    destruct (sep_start_ws (map write (x :: l)) (c_rbrack :: rest) ltac:(discriminate) S) as (c & t & E & W & y & l' & E').
    rewrite E. cbn [skip_ws]. rewrite W.
    assert (N : Nat.eqb c c_rbrack = false).
    { cbn [map] in E'. injection E' as E' _. destruct (Nat.eqb_spec c c_rbrack) as [->|]; auto.
      inversion OK as [|? ? Ox _]; subst. destruct x as [|[|]|t0|s0|l0|l0]; unfold c_rbrack in E'; simpl in E';
        unfold s_null, s_true, s_false, write_str, c_quote, c_lbrack, c_lbrace in E'; try discriminate E'.
      destruct Ox as (_ & c' & t'' & -> & Hc & _). injection E' as -> _. discriminate Hc. }
    rewrite N. rewrite <- E.
    rewrite (read_elems_ok _ (x :: l)); [reflexivity|discriminate| |].
    + rewrite Forall_forall in IH, OK |- *. intros v Hv r Hr. apply IH; auto.
      pose proof (nesting_arr _ _ Hv). lia.
    + rewrite app_length. pose proof (sep_length (map write (x :: l))) as L. rewrite map_length in L.
      etransitivity; [apply L|lia]. eapply Forall_impl; [|exact S]. intros ? (? & ? & -> & _). discriminate.
  - apply json_ok_obj in OK. destruct d as [|d]; [lia|]. destruct d as [|d]; [simpl in D; lia|].
    rewrite write_obj. rewrite <- app_comm_cons, <- app_assoc. cbn [app].
    rewrite read_value_obj.
    destruct l as [|x l]; [reflexivity|].
    assert (S : Forall (fun x => exists c t, x = c :: t /\ is_ws c = false) (map write_member (x :: l))).
    { apply Forall_map. apply Forall_forall. intros [k v] _. simpl. eexists _, _. split; reflexivity. }
    destruct (sep_start_ws (map write_member (x :: l)) (c_rbrace :: rest) ltac:(discriminate) S) as (c & t & E & W & y & l' & E').
    rewrite E. cbn [skip_ws]. rewrite W.
    assert (N : Nat.eqb c c_rbrace = false).
    { cbn [map] in E'. injection E' as E' _. destruct x as [k v]. simpl in E'. injection E' as <- _. reflexivity. }
    rewrite N. rewrite <- E.
    rewrite (read_members_ok _ (x :: l)); [reflexivity|discriminate| |].
    + rewrite Forall_forall in IH, OK |- *. intros v Hv r Hr. apply IH; auto.
      pose proof (nesting_obj _ _ Hv). lia.
    + rewrite app_length. pose proof (sep_length (map write_member (x :: l))) as L. rewrite map_length in L.
      etransitivity; [apply L|lia]. eapply Forall_impl; [|exact S]. intros ? (? & ? & -> & _). discriminate.
Qed.

Lemma read_json_write j : json_ok j -> nesting j < recursion_limit -> read_json (write j) = Some j.
Proof.
  intros OK D. unfold read_json. rewrite <- (app_nil_r (write j)), read_write; auto. exact I.
Qed.

(* ---- no control characters are written ---- *)

Lemma esc_printable b : Forall (fun c => 32 <= c) (esc b).
Proof.
  unfold esc. repeat match goal with |- context [Nat.eqb b ?n] => destruct (Nat.eqb b n); [repeat constructor; lia|] end.
  destruct (Nat.ltb_spec b 32); [|repeat constructor; lia].
  assert (H1 : forall n, 32 <= hex_digit n) by (intros n; unfold hex_digit; destruct (Nat.ltb n 10); lia).
  repeat constructor; try lia; auto.
Qed.

Lemma write_str_printable s : Forall (fun c => 32 <= c) (write_str s).
Proof.
  unfold write_str. constructor; [unfold c_quote; lia|]. apply Forall_app. split; [|repeat constructor; unfold c_quote; lia].
  apply Forall_flat_map. apply Forall_forall. intros; apply esc_printable.
Qed.

Lemma sep_printable l : Forall (Forall (fun c => 32 <= c)) l -> Forall (fun c => 32 <= c) (sep l).
Proof.
  induction l as [|x l IH]; intros H; [constructor|]. inversion H; subst. destruct l as [|y l]; [auto|].
  rewrite sep_cons. apply Forall_app. split; auto. constructor; [unfold c_comma; lia|auto].
Qed.

Lemma num_printable c : is_num c = true -> 32 <= c.
Proof.
  unfold is_num, is_digit. rewrite !orb_true_iff, andb_true_iff, !Nat.leb_le, !Nat.eqb_eq. lia.
Qed.

Lemma write_printable j : json_ok j -> Forall (fun c => 32 <= c) (write j).
Proof.
  induction j as [|b|t|s|l IH|l IH] using json_ind'; intros OK.
  - repeat constructor; lia.
  - destruct b; repeat constructor; lia.
  - destruct OK as (_ & c & t' & -> & Hc & Ht). simpl. constructor.
    + apply num_printable. unfold is_num. rewrite orb_true_iff in Hc. destruct Hc as [->|E]; auto.
      rewrite E. now rewrite !orb_true_r.
    + eapply Forall_impl; [|exact Ht]. apply num_printable.
  - apply write_str_printable.
  - apply json_ok_arr in OK. cbn [write]. constructor; [unfold c_lbrack; lia|]. apply Forall_app. split.
    + apply sep_printable, Forall_map. rewrite Forall_forall in *. auto.
    + repeat constructor.
  - apply json_ok_obj in OK. rewrite write_obj. constructor; [unfold c_lbrace; lia|]. apply Forall_app. split.
    + apply sep_printable, Forall_map. rewrite Forall_forall in *. intros [k v] Hkv. unfold write_member.
      apply Forall_app. split; [apply write_str_printable|]. constructor; [unfold c_colon; lia|].
      apply (IH (k, v)); auto.
    + repeat constructor.
Qed.

(* ---- what is read is not nested deeper than the limit ---- *)

Lemma read_elems_all rv (P : json -> Prop) : (forall b j r, rv b = Some (j, r) -> P j) ->
  forall fuel b l r, read_elems rv fuel b = Some (l, r) -> Forall P l.
Proof.
  intros H fuel. induction fuel as [|fuel IH]; intros b l r E; [discriminate|]. simpl in E.
  destruct (rv b) as [[v b1]|] eqn:E1; [|discriminate]. apply H in E1.
  destruct (skip_ws b1) as [|c b2]; [discriminate|]. destruct (Nat.eqb c c_rbrack); [injection E as <- _; auto|].
  destruct (Nat.eqb c c_comma); [|discriminate].
  destruct (read_elems rv fuel b2) as [[vs r']|] eqn:E2; [|discriminate]. injection E as <- _. eauto.
Qed.

Lemma read_members_all rv (P : json -> Prop) : (forall b j r, rv b = Some (j, r) -> P j) ->
  forall fuel b l r, read_members rv fuel b = Some (l, r) -> Forall (fun kv => P (snd kv)) l.
Proof.
  intros H fuel. induction fuel as [|fuel IH]; intros b l r E; [discriminate|]. simpl in E.
  destruct (skip_ws b) as [|q b0]; [discriminate|]. destruct (Nat.eqb q c_quote); [|discriminate].
  destruct (read_str b0) as [[k b1]|]; [|discriminate]. destruct (skip_ws b1) as [|c b2]; [discriminate|].
  destruct (Nat.eqb c c_colon); [|discriminate].
  destruct (rv b2) as [[v b3]|] eqn:E1; [|discriminate]. apply H in E1.
  destruct (skip_ws b3) as [|d b4]; [discriminate|]. destruct (Nat.eqb d c_rbrace); [injection E as <- _; auto|].
  destruct (Nat.eqb d c_comma); [|discriminate].
  destruct (read_members rv fuel b4) as [[vs r']|] eqn:E2; [|discriminate]. injection E as <- _. constructor; eauto.
Qed.

Lemma max_bound {A} (f : A -> nat) n l : Forall (fun x => f x < n) l -> 0 < n -> fold_right (fun x m => Nat.max (f x) m) 0 l < n.
Proof. intros H N. induction H; simpl; lia. Qed.

Lemma read_nesting d : forall b j r, read_value d b = Some (j, r) -> nesting j < Nat.max 1 d.
Proof.
  induction d as [d IH] using lt_wf_ind. intros b j r E.
  assert (X : read_value d b = match skip_ws b with
    | [] => None
    | c :: b1 => read_value d (c :: b1) end).
  { destruct d; simpl; destruct (skip_ws b) as [|c b1] eqn:S; auto; simpl.
    all: assert (W : is_ws c = false) by (clear - S; induction b as [|x b IH]; [discriminate|]; simpl in S; destruct (is_ws x) eqn:W; [auto|congruence]);
      rewrite W; reflexivity. }
  rewrite X in E. clear X. destruct (skip_ws b) as [|c b1] eqn:S; [discriminate|].
  assert (W : is_ws c = false) by (clear - S; induction b as [|x b IH]; [discriminate|]; simpl in S; destruct (is_ws x) eqn:W; [auto|congruence]).
  clear b S.
  destruct (Nat.eqb_spec c c_lbrack) as [->|N1]; [|destruct (Nat.eqb_spec c c_lbrace) as [->|N2]].
  - destruct d as [|[|d]]; [discriminate..|]. rewrite read_value_arr in E.
    destruct (skip_ws b1) as [|x b2]; [discriminate|]. destruct (Nat.eqb x c_rbrack); [injection E as <- _; simpl; lia|].
    destruct (read_elems _ _ _) as [[l r']|] eqn:E1; [|discriminate]. injection E as <- _.
    apply (read_elems_all _ (fun j => nesting j < S d)) in E1.
    + cbn [nesting]. pose proof (max_bound nesting (S d) l E1 ltac:(lia)). lia.
    + intros b' j' r'' H. apply (IH (S d)) in H; lia.
  - destruct d as [|[|d]]; [discriminate..|]. rewrite read_value_obj in E.
    destruct (skip_ws b1) as [|x b2]; [discriminate|]. destruct (Nat.eqb x c_rbrace); [injection E as <- _; simpl; lia|].
    destruct (read_members _ _ _) as [[l r']|] eqn:E1; [|discriminate]. injection E as <- _.
    apply (read_members_all _ (fun j => nesting j < S d)) in E1.
    + cbn [nesting]. pose proof (max_bound (fun kv : bytes * json => nesting (snd kv)) (S d) l E1 ltac:(lia)). lia.
    + intros b' j' r'' H. apply (IH (S d)) in H; lia.
  - assert (Z : nesting j = 0); [|lia].
    apply Nat.eqb_neq in N1, N2. destruct d; cbn [read_value skip_ws] in E; rewrite W, N1, N2 in E.
    all: destruct (Nat.eqb c c_quote); [destruct (read_str b1) as [[s r']|]; [injection E as <- _; reflexivity|discriminate]|].
    all: destruct (is_digit c || Nat.eqb c 45); [destruct (span_num b1); destruct (is_number _); [|discriminate]; injection E as <- _; reflexivity|].
    all: destruct (strip s_null (c :: b1)); [injection E as <- _; reflexivity|].
    all: destruct (strip s_true (c :: b1)); [injection E as <- _; reflexivity|].
    all: destruct (strip s_false (c :: b1)); [injection E as <- _; reflexivity|discriminate].
Qed.

Lemma read_json_nesting b j : read_json b = Some j -> nesting j < recursion_limit.
Proof.
  unfold read_json. destruct (read_value recursion_limit b) as [[j' r]|] eqn:E; [|discriminate].
  apply read_nesting in E. destruct (skip_ws r); [|discriminate]. intros [= <-]. exact E.
Qed.
