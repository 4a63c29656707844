(* A part of a JSON text that is an object is not a JSON text: neither a shorter
   beginning nor a rest of it is read. *)
From Verif Require Import Base JsonModel JsonProofs JsonlModel JsonlProofs.
From Coq Require Import ZArith.

(* Where one is in a text: outside strings, inside one, after a backslash; and how
   many brackets are open. *)
Inductive place := Out | Inside | Esc.
Definition lex1 (s : place * Z) (c : byte) : option (place * Z) :=
  let '(p, d) := s in
  match p with
  | Out => if Nat.eqb c c_quote then Some (Inside, d)
           else if Nat.eqb c c_back then None
           else if Nat.eqb c c_lbrack || Nat.eqb c c_lbrace then Some (Out, (d + 1)%Z)
           else if Nat.eqb c c_rbrack || Nat.eqb c c_rbrace then Some (Out, (d - 1)%Z)
           else Some (Out, d)
  | Inside => if Nat.eqb c c_quote then Some (Out, d) else if Nat.eqb c c_back then Some (Esc, d) else Some (Inside, d)
  | Esc => Some (Inside, d)
  end.
Fixpoint lex (s : place * Z) (b : bytes) : option (place * Z) :=
  match b with [] => Some s | c :: b' => match lex1 s c with None => None | Some s' => lex s' b' end end.

Lemma lex_app s a b : lex s (a ++ b) = match lex s a with None => None | Some s' => lex s' b end.
Proof. revert s. induction a as [|c a IH]; intros s; cbn [lex app]; auto. destruct (lex1 s c); auto. Qed.

Lemma lex1_shift p d k c : lex1 (p, (d + k)%Z) c = option_map (fun s => (fst s, (snd s + k)%Z)) (lex1 (p, d) c).
Proof.
  destruct p; simpl; repeat match goal with |- context [if ?x then _ else _] => destruct x end; simpl; auto; do 2 f_equal; lia.
Qed.

Lemma lex_shift b : forall p d k, lex (p, (d + k)%Z) b = option_map (fun s => (fst s, (snd s + k)%Z)) (lex (p, d) b).
Proof.
  induction b as [|c b IH]; intros p d k; [reflexivity|]. cbn [lex]. rewrite lex1_shift. destruct (lex1 (p, d) c) as [[p' d']|]; cbn [option_map fst snd]; auto.
Qed.

(* ordinary characters outside strings *)
Definition plain (c : byte) : Prop := forall d, lex1 (Out, d) c = Some (Out, d).
Lemma lex_plain b d : Forall plain b -> lex (Out, d) b = Some (Out, d).
Proof. induction 1 as [|c b H _ IH]; cbn [lex]; auto. now rewrite H. Qed.

Ltac plain_tac c H := intros d; unfold lex1, c_quote, c_back, c_lbrack, c_lbrace, c_rbrack, c_rbrace;
  repeat match goal with |- context [Nat.eqb c ?n] => destruct (Nat.eqb_spec c n); [subst c; vm_compute in H; discriminate H|] end;
  reflexivity.

Lemma ws_plain c : is_ws c = true -> plain c.
Proof. intros H. plain_tac c H. Qed.
Lemma num_plain c : is_num c = true -> plain c.
Proof. intros H. plain_tac c H. Qed.
Lemma digit_plain c : (is_digit c || Nat.eqb c 45) = true -> plain c.
Proof. intros H. plain_tac c H. Qed.
Lemma comma_plain : plain c_comma.
Proof. intros d. reflexivity. Qed.
Lemma colon_plain : plain c_colon.
Proof. intros d. reflexivity. Qed.

Lemma skip_ws_split b : exists p, b = p ++ skip_ws b /\ Forall plain p.
Proof.
  induction b as [|c b IH]; simpl; [exists []; auto|]. destruct IH as (p & E & H). destruct (is_ws c) eqn:W; [|exists []; auto].
  exists (c :: p). split; [simpl; congruence|]. constructor; auto. now apply ws_plain.
Qed.

Lemma hex_plain c n d : hex_val c = Some n -> lex1 (Inside, d) c = Some (Inside, d).
Proof.
  intros H. unfold lex1, c_quote, c_back. destruct (Nat.eqb_spec c 34) as [->|]; [discriminate H|].
  destruct (Nat.eqb_spec c 92) as [->|]; [discriminate H|auto].
Qed.

Lemma hex4_plain h1 h2 h3 h4 n d : hex4 h1 h2 h3 h4 = Some n ->
  lex1 (Inside, d) h1 = Some (Inside, d) /\ lex1 (Inside, d) h2 = Some (Inside, d) /\ lex1 (Inside, d) h3 = Some (Inside, d) /\ lex1 (Inside, d) h4 = Some (Inside, d).
Proof.
  unfold hex4. destruct (hex_val h1) eqn:E1; [|discriminate]. destruct (hex_val h2) eqn:E2; [|discriminate]. destruct (hex_val h3) eqn:E3; [|discriminate].
  destruct (hex_val h4) eqn:E4; [|discriminate]. intros _. repeat split; eapply hex_plain; eauto.
Qed.

Lemma read_str_lex : forall n b s r d, length b <= n -> read_str b = Some (s, r) -> exists p, b = p ++ r /\ lex (Inside, d) p = Some (Out, d).
Proof.
  induction n as [|n IH]; intros b s r d L H; (destruct b as [|c b]; [discriminate|]); simpl in L; [lia|].
  rewrite read_str_eq in H. destruct (Nat.eqb_spec c 34) as [->|N1].
  { injection H as <- <-. exists [34]. auto. }
  destruct (Nat.eqb_spec c 92) as [->|N2].
  - destruct b as [|e b]; [discriminate|]. simpl in L. destruct (Nat.eqb_spec e 117) as [->|N3].
    + destruct (read_unicode b) as [[x b3]|] eqn:U; [|discriminate]. destruct (read_str b3) as [[s' r']|] eqn:R; [|discriminate].
      injection H as <- <-. pose proof (read_unicode_length _ _ _ U) as LU. destruct (IH b3 s' r' d) as (p & -> & E); auto; [lia|].
      apply read_unicode_split in U as [(h1 & h2 & h3 & h4 & -> & X & _)|(h1 & h2 & h3 & h4 & g1 & g2 & g3 & g4 & n1 & n2 & -> & X & Y & _)].
      * apply hex4_plain with (d := d) in X as (X1 & X2 & X3 & X4). exists (92 :: 117 :: h1 :: h2 :: h3 :: h4 :: p). split; auto. cbn [lex].
        change (lex1 (Inside, d) 92) with (Some (Esc, d)). cbn iota. change (lex1 (Esc, d) 117) with (Some (Inside, d)). cbn iota.
        rewrite X1, X2, X3, X4. exact E.
      * apply hex4_plain with (d := d) in X as (X1 & X2 & X3 & X4). apply hex4_plain with (d := d) in Y as (Y1 & Y2 & Y3 & Y4).
        exists (92 :: 117 :: h1 :: h2 :: h3 :: h4 :: 92 :: 117 :: g1 :: g2 :: g3 :: g4 :: p). split; auto. cbn [lex].
        change (lex1 (Inside, d) 92) with (Some (Esc, d)). cbn iota. change (lex1 (Esc, d) 117) with (Some (Inside, d)). cbn iota.
        rewrite X1, X2, X3, X4. change (lex1 (Inside, d) 92) with (Some (Esc, d)). cbn iota. change (lex1 (Esc, d) 117) with (Some (Inside, d)). cbn iota.
        rewrite Y1, Y2, Y3, Y4. exact E.
    + destruct (unescape e) as [x|]; [|discriminate]. destruct (read_str b) as [[s' r']|] eqn:R; [|discriminate].
      injection H as <- <-. destruct (IH b s' r' d) as (p & -> & E); auto; [lia|].
      exists (92 :: e :: p). split; auto.
  - destruct (Nat.ltb c 32); [discriminate|]. destruct (read_str b) as [[s' r']|] eqn:R; [|discriminate].
    injection H as <- <-. destruct (IH b s' r' d) as (p & -> & E); auto; [lia|].
    exists (c :: p). split; auto. cbn [lex]. unfold lex1, c_quote, c_back.
    destruct (Nat.eqb_spec c 34); [lia|]. destruct (Nat.eqb_spec c 92); [lia|]. exact E.
Qed.

(* what reading a value passes over leaves the lexer where it was *)
Definition passes (f : bytes -> option bytes) : Prop :=
  forall b r d, f b = Some r -> exists p, b = p ++ r /\ lex (Out, d) p = Some (Out, d).

Lemma span_num_split b : exists p, b = p ++ snd (span_num b) /\ Forall plain p.
Proof.
  induction b as [|c b IH]; simpl; [exists []; auto|]. destruct IH as (p & E & H). destruct (is_num c) eqn:W; [|exists []; auto].
  destruct (span_num b) as [t r]. simpl in *. exists (c :: p). split; [simpl; congruence|]. constructor; auto. now apply num_plain.
Qed.

Lemma strip_split p : forall b r, strip p b = Some r -> b = p ++ r.
Proof.
  induction p as [|x p IH]; intros b r H; [simpl in *; congruence|]; destruct b as [|y b]; simpl in H; [discriminate|].
  destruct (Nat.eqb_spec x y) as [->|]; [|discriminate]. simpl. f_equal. auto.
Qed.

Section Loop.
Context (rv : bytes -> option (json * bytes))
        (RV : forall b j r d, rv b = Some (j, r) -> exists p, b = p ++ r /\ lex (Out, d) p = Some (Out, d)).

Lemma read_elems_lex fuel : forall b l r d, read_elems rv fuel b = Some (l, r) ->
  exists p, b = p ++ r /\ lex (Out, (d + 1)%Z) p = Some (Out, d).
Proof.
  induction fuel as [|fuel IH]; intros b l r d H; [discriminate|]. cbn [read_elems] in H.
  destruct (rv b) as [[v b1]|] eqn:E; [|discriminate]. destruct (RV _ _ _ (d + 1)%Z E) as (p1 & -> & L1).
  destruct (skip_ws_split b1) as (w & Ew & Fw). destruct (skip_ws b1) as [|c b2]; [discriminate|].
  apply lex_plain with (d := (d + 1)%Z) in Fw.
  destruct (Nat.eqb_spec c c_rbrack) as [->|].
  - injection H as <- <-. exists (p1 ++ w ++ [c_rbrack]). split; [rewrite Ew; now rewrite <- !app_assoc|].
    rewrite lex_app, L1, lex_app, Fw. simpl. repeat f_equal; lia.
  - destruct (Nat.eqb_spec c c_comma) as [->|]; [|discriminate].
    destruct (read_elems rv fuel b2) as [[vs r']|] eqn:E2; [|discriminate]. injection H as <- <-.
    destruct (IH _ _ _ d E2) as (p2 & -> & L2). exists (p1 ++ w ++ c_comma :: p2).
    split; [rewrite Ew; now rewrite <- !app_assoc|]. rewrite lex_app, L1, lex_app, Fw. cbn [lex]. rewrite comma_plain. exact L2.
Qed.

Lemma read_members_lex fuel : forall b l r d, read_members rv fuel b = Some (l, r) ->
  exists p, b = p ++ r /\ lex (Out, (d + 1)%Z) p = Some (Out, d).
Proof.
  induction fuel as [|fuel IH]; intros b l r d H; [discriminate|]. cbn [read_members] in H.
  destruct (skip_ws_split b) as (w0 & E0 & F0). destruct (skip_ws b) as [|q b0]; [discriminate|].
  apply lex_plain with (d := (d + 1)%Z) in F0.
  destruct (Nat.eqb_spec q c_quote) as [->|]; [|discriminate].
  destruct (read_str b0) as [[k b1]|] eqn:Es; [|discriminate].
  destruct (read_str_lex (length b0) b0 k b1 (d + 1)%Z (le_n _) Es) as (ps & -> & Ls).
  destruct (skip_ws_split b1) as (w1 & E1 & F1). destruct (skip_ws b1) as [|c b2]; [discriminate|].
  apply lex_plain with (d := (d + 1)%Z) in F1.
  destruct (Nat.eqb_spec c c_colon) as [->|]; [|discriminate].
  destruct (rv b2) as [[v b3]|] eqn:Ev; [|discriminate]. destruct (RV _ _ _ (d + 1)%Z Ev) as (pv & -> & Lv).
  destruct (skip_ws_split b3) as (w3 & E3 & F3). destruct (skip_ws b3) as [|x b4]; [discriminate|].
  apply lex_plain with (d := (d + 1)%Z) in F3.
  assert (G : forall rest, lex (Out, (d + 1)%Z) (w0 ++ c_quote :: ps ++ w1 ++ c_colon :: pv ++ w3 ++ rest) = lex (Out, (d + 1)%Z) rest).
  { intros rest. rewrite lex_app, F0. cbn [lex]. change (lex1 (Out, (d + 1)%Z) c_quote) with (Some (Inside, (d + 1)%Z)). cbn iota.
    rewrite lex_app, Ls, lex_app, F1. cbn [lex]. rewrite colon_plain. now rewrite lex_app, Lv, lex_app, F3. }
  destruct (Nat.eqb_spec x c_rbrace) as [->|].
  - injection H as <- <-. exists (w0 ++ c_quote :: ps ++ w1 ++ c_colon :: pv ++ w3 ++ [c_rbrace]). split.
    + rewrite E0, E1, E3. repeat (rewrite <- app_assoc || cbn [app]). reflexivity.
    + rewrite G. simpl. repeat f_equal; lia.
  - destruct (Nat.eqb_spec x c_comma) as [->|]; [|discriminate].
    destruct (read_members rv fuel b4) as [[ms r']|] eqn:Em; [|discriminate]. injection H as <- <-.
    destruct (IH _ _ _ d Em) as (p2 & -> & L2).
    exists (w0 ++ c_quote :: ps ++ w1 ++ c_colon :: pv ++ w3 ++ c_comma :: p2). split.
    + rewrite E0, E1, E3. repeat (rewrite <- app_assoc || cbn [app]). reflexivity.
    + rewrite G. cbn [lex]. rewrite comma_plain. exact L2.
Qed.
End Loop.

Lemma read_value_lex depth : forall b j r d, read_value depth b = Some (j, r) ->
  exists p, b = p ++ r /\ lex (Out, d) p = Some (Out, d).
Proof.
  induction depth as [|depth IH]; intros b j r d H; cbn [read_value] in H;
    destruct (skip_ws_split b) as (w & Ew & Fw); (destruct (skip_ws b) as [|c b1]; [discriminate|]);
    apply lex_plain with (d := d) in Fw.
  1, 2: destruct (Nat.eqb_spec c c_quote) as [->|];
    [destruct (read_str b1) as [[s r']|] eqn:Es; [|discriminate]; injection H as <- <-;
     destruct (read_str_lex (length b1) b1 s r' d (le_n _) Es) as (ps & -> & Ls); exists (w ++ c_quote :: ps);
     split; [rewrite Ew; now rewrite <- app_assoc|]; rewrite lex_app, Fw; exact Ls|].
  - destruct (Nat.eqb_spec c c_lbrack); [discriminate|]. destruct (Nat.eqb_spec c c_lbrace); [discriminate|].
    destruct (is_digit c || Nat.eqb c 45) eqn:Dg.
    + destruct (span_num_split b1) as (pn & En & Fn). destruct (span_num b1) as [t r']. destruct (is_number (c :: t)); [|discriminate]. injection H as <- <-. simpl in En.
      exists (w ++ c :: pn). split; [rewrite Ew, En; now rewrite <- app_assoc|]. rewrite lex_app, Fw.
      apply lex_plain. constructor; auto. now apply digit_plain.
    + destruct (strip s_null (c :: b1)) eqn:S1; [injection H as <- <-; apply strip_split in S1|
      destruct (strip s_true (c :: b1)) eqn:S2; [injection H as <- <-; apply strip_split in S2|
      destruct (strip s_false (c :: b1)) eqn:S3; [injection H as <- <-; apply strip_split in S3|discriminate]]];
      (eexists; split; [rewrite Ew; match goal with X : c :: b1 = _ |- _ => rewrite X end; apply app_assoc|]; rewrite lex_app, Fw; reflexivity).
  - destruct (Nat.eqb_spec c c_lbrack) as [->|]; [|destruct (Nat.eqb_spec c c_lbrace) as [->|]].
    + destruct depth as [|depth']; [discriminate|]. destruct (skip_ws_split b1) as (w1 & E1 & F1).
      destruct (skip_ws b1) as [|x b2]; [discriminate|]. apply lex_plain with (d := (d + 1)%Z) in F1.
      destruct (Nat.eqb_spec x c_rbrack) as [->|].
      * injection H as <- <-. exists (w ++ c_lbrack :: w1 ++ [c_rbrack]).
        split; [rewrite Ew, E1; repeat (rewrite <- app_assoc || cbn [app]); reflexivity|].
        rewrite lex_app, Fw. cbn [lex]. change (lex1 (Out, d) c_lbrack) with (Some (Out, (d + 1)%Z)). cbn iota.
        rewrite lex_app, F1. simpl. repeat f_equal; lia.
      * destruct (read_elems _ _ b1) as [[l r']|] eqn:El; [|discriminate]. injection H as <- <-.
        destruct (read_elems_lex (read_value (S depth')) IH _ _ _ _ d El) as (p & -> & L).
        exists (w ++ c_lbrack :: p). split; [rewrite Ew; now rewrite <- app_assoc|].
        rewrite lex_app, Fw. cbn [lex]. change (lex1 (Out, d) c_lbrack) with (Some (Out, (d + 1)%Z)). cbn iota. exact L.
    + destruct depth as [|depth']; [discriminate|]. destruct (skip_ws_split b1) as (w1 & E1 & F1).
      destruct (skip_ws b1) as [|x b2]; [discriminate|]. apply lex_plain with (d := (d + 1)%Z) in F1.
      destruct (Nat.eqb_spec x c_rbrace) as [->|].
      * injection H as <- <-. exists (w ++ c_lbrace :: w1 ++ [c_rbrace]).
        split; [rewrite Ew, E1; repeat (rewrite <- app_assoc || cbn [app]); reflexivity|].
        rewrite lex_app, Fw. cbn [lex]. change (lex1 (Out, d) c_lbrace) with (Some (Out, (d + 1)%Z)). cbn iota.
        rewrite lex_app, F1. simpl. repeat f_equal; lia.
      * destruct (read_members _ _ b1) as [[l r']|] eqn:El; [|discriminate]. injection H as <- <-.
        destruct (read_members_lex (read_value (S depth')) IH _ _ _ _ d El) as (p & -> & L).
        exists (w ++ c_lbrace :: p). split; [rewrite Ew; now rewrite <- app_assoc|].
        rewrite lex_app, Fw. cbn [lex]. change (lex1 (Out, d) c_lbrace) with (Some (Out, (d + 1)%Z)). cbn iota. exact L.
    + destruct (is_digit c || Nat.eqb c 45) eqn:Dg.
      * destruct (span_num_split b1) as (pn & En & Fn). destruct (span_num b1) as [t r']. destruct (is_number (c :: t)); [|discriminate]. injection H as <- <-. simpl in En.
        exists (w ++ c :: pn). split; [rewrite Ew, En; now rewrite <- app_assoc|]. rewrite lex_app, Fw.
        apply lex_plain. constructor; auto. now apply digit_plain.
      * destruct (strip s_null (c :: b1)) eqn:S1; [injection H as <- <-; apply strip_split in S1|
        destruct (strip s_true (c :: b1)) eqn:S2; [injection H as <- <-; apply strip_split in S2|
        destruct (strip s_false (c :: b1)) eqn:S3; [injection H as <- <-; apply strip_split in S3|discriminate]]];
        (eexists; split; [rewrite Ew; match goal with X : c :: b1 = _ |- _ => rewrite X end; apply app_assoc|]; rewrite lex_app, Fw; reflexivity).
Qed.

(* a whole text *)
Definition whole (depth : nat) (b : bytes) : Prop :=
  exists j r, read_value depth b = Some (j, r) /\ skip_ws r = [].
Lemma whole_lex depth b d : whole depth b -> b <> [] /\ lex (Out, d) b = Some (Out, d).
Proof.
  intros (j & r & H & W). split; [intros ->; destruct depth; discriminate|].
  destruct (read_value_lex depth b j r d H) as (p & -> & L). rewrite lex_app, L.
  destruct (skip_ws_split r) as (w & E & F). rewrite W, app_nil_r in E. subst. now apply lex_plain.
Qed.
Lemma read_json_whole b j : read_json b = Some j -> whole recursion_limit b.
Proof.
  unfold read_json, whole. destruct (read_value recursion_limit b) as [[j' r]|]; [|discriminate].
  destruct (skip_ws r) eqn:E; [|discriminate]. eauto.
Qed.
Lemma raw_value_whole b x : raw_value b = Some x -> whole (S (S (length b))) b.
Proof.
  unfold raw_value, whole. destruct (read_value _ b) as [[j' r]|]; [|discriminate].
  destruct (skip_ws r) eqn:E; [|discriminate]. eauto.
Qed.

(* ---- what is written ---- *)

(* written at depth d: ends there, outside strings, and is never below *)
Definition level (d : Z) (b : bytes) : Prop :=
  lex (Out, d) b = Some (Out, d) /\
  forall p q, b = p ++ q -> exists s d', lex (Out, d) p = Some (s, d') /\ (d <= d')%Z.

Lemma level_nil d : level d [].
Proof. split; auto. intros p q E. symmetry in E. apply app_eq_nil in E as [-> _]. exists Out, d. split; [auto|lia]. Qed.
Lemma level_app d a b : level d a -> level d b -> level d (a ++ b).
Proof.
  intros [A1 A2] [B1 B2]. split; [now rewrite lex_app, A1|]. intros p q E.
  apply app_eq_app in E as (l & [[-> E]|[-> E]]); [eapply A2; reflexivity|].
  destruct (B2 l q) as (s & d' & H & L); [auto|]. exists s, d'. now rewrite lex_app, A1.
Qed.
Lemma level_plain d b : Forall plain b -> level d b.
Proof.
  intros H. split; [now apply lex_plain|]. intros p q ->. apply Forall_app in H as [H _]. exists Out, d.
  split; [now apply lex_plain|lia].
Qed.
Lemma level_cons d c b : plain c -> level d b -> level d (c :: b).
Proof. intros. apply (level_app d [c] b); auto. apply level_plain. constructor; auto. Qed.

Lemma lex_inside_esc c d : lex (Inside, d) (esc c) = Some (Inside, d) /\
  forall p q, esc c = p ++ q -> exists s, lex (Inside, d) p = Some (s, d).
Proof.
  assert (G : forall c1 c2, (forall p q, [c1; c2] = p ++ q -> exists s, lex (Inside, d) p = Some (s, d)) <->
             (exists s1, lex (Inside, d) [c1] = Some (s1, d)) /\ (exists s2, lex (Inside, d) [c1; c2] = Some (s2, d))).
  { intros c1 c2. split; [intros H; split; [eapply (H [c1] [c2])|eapply (H [c1; c2] [])]; reflexivity|].
    intros [H1 H2] [|x [|y [|]]] q E; simpl in E; [eexists; reflexivity|injection E as <- _; eauto|injection E as <- <- _; eauto|discriminate]. }
  unfold esc.
  repeat match goal with |- context [Nat.eqb c ?n] =>
    destruct (Nat.eqb_spec c n); [split; [reflexivity|]; apply G; split; eexists; reflexivity|] end.
  destruct (Nat.ltb_spec c 32).
  - assert (X : forall n, n < 16 -> lex1 (Inside, d) (hex_digit n) = Some (Inside, d)) by
      (intros m Hm; do 16 (destruct m as [|m]; [reflexivity|]); lia).
    assert (B1 : c / 16 < 16) by (apply Nat.div_lt_upper_bound; lia).
    assert (B2 : c mod 16 < 16) by (apply Nat.mod_upper_bound; lia).
    pose proof (X _ B1) as X1. pose proof (X _ B2) as X2. clear X.
    generalize dependent (hex_digit (c / 16)). generalize dependent (hex_digit (c mod 16)). intros y X2 x X1.
    assert (L : forall b, lex (Inside, d) (92 :: 117 :: 48 :: 48 :: b) = lex (Inside, d) b) by reflexivity.
    assert (Lx : lex (Inside, d) [x] = Some (Inside, d)) by (cbn [lex]; now rewrite X1).
    assert (Lxy : lex (Inside, d) [x; y] = Some (Inside, d)) by (cbn [lex]; rewrite X1; cbn iota; now rewrite X2).
    split; [rewrite L; exact Lxy|]. intros p q E.
    assert (P : exists k, p = firstn k [92; 117; 48; 48; x; y]).
    { exists (length p). rewrite E, firstn_app, firstn_all, Nat.sub_diag. simpl. now rewrite app_nil_r. }
    destruct P as (k & ->).
    do 5 (destruct k as [|k]; [eexists; reflexivity|]). destruct k as [|k].
    + exists Inside. change (firstn 5 [92; 117; 48; 48; x; y]) with [92; 117; 48; 48; x]. rewrite L. exact Lx.
    + exists Inside. rewrite firstn_all2 by (simpl; lia). rewrite L. exact Lxy.
  - assert (X : lex (Inside, d) [c] = Some (Inside, d)).
    { simpl. unfold c_quote, c_back. destruct (Nat.eqb_spec c 34); [lia|]. destruct (Nat.eqb_spec c 92); [lia|]. reflexivity. }
    split; [exact X|]. intros [|x [|]] q E; simpl in E; [eexists; reflexivity|injection E as <- _; eauto|discriminate].
Qed.

Lemma lex_inside_str s d : lex (Inside, d) (flat_map esc s) = Some (Inside, d) /\
  forall p q, flat_map esc s = p ++ q -> exists x, lex (Inside, d) p = Some (x, d).
Proof.
  induction s as [|c s [IH1 IH2]]; simpl.
  - split; auto. intros p q E. symmetry in E. apply app_eq_nil in E as [-> _]. eexists; reflexivity.
  - destruct (lex_inside_esc c d) as [E1 E2]. split; [now rewrite lex_app, E1|]. intros p q E.
    apply app_eq_app in E as (l & [[E' E]|[-> E]]); [eapply E2; eauto|].
    destruct (IH2 l q) as (x & H); auto. exists x. now rewrite lex_app, E1.
Qed.

Lemma level_str d s : level d (write_str s).
Proof.
  destruct (lex_inside_str s d) as [E1 E2]. unfold write_str. split.
  - cbn [lex]. change (lex1 (Out, d) c_quote) with (Some (Inside, d)). cbn iota. rewrite lex_app, E1. reflexivity.
  - intros [|c p] q E; [exists Out, d; split; [auto|lia]|]. injection E as <- E. cbn [lex].
    change (lex1 (Out, d) c_quote) with (Some (Inside, d)). cbn iota.
    apply app_eq_app in E as (l & [[E' E]|[-> E]]).
    + destruct (E2 p l) as (x & H); auto. exists x, d. split; [auto|lia].
    + destruct l as [|y l]; simpl in E.
      * rewrite app_nil_r. exists Inside, d. split; [auto|lia].
      * injection E as <- E. symmetry in E. apply app_eq_nil in E as [-> ->]. exists Out, d.
        rewrite lex_app, E1. split; [reflexivity|lia].
Qed.

Lemma level_sep d l : Forall (level d) l -> level d (sep l).
Proof.
  induction 1 as [|x l H Hl IH]; [apply level_nil|]. destruct l as [|y l]; [exact H|]. rewrite sep_cons.
  apply level_app; auto. apply level_cons; auto using comma_plain.
Qed.

(* a bracketed text: below its bracket it is one level deeper *)
Lemma level_wrap d o c b :
  (forall d, lex1 (Out, d) o = Some (Out, (d + 1)%Z)) -> (forall d, lex1 (Out, d) c = Some (Out, (d - 1)%Z)) ->
  level (d + 1) b ->
  level d (o :: b ++ [c]) /\
  forall p q, o :: b ++ [c] = p ++ q -> p <> [] -> q <> [] -> exists s d', lex (Out, d) p = Some (s, d') /\ (d + 1 <= d')%Z.
Proof.
  intros O C [B1 B2].
  assert (K : forall p q, o :: b ++ [c] = p ++ q -> p <> [] -> q <> [] -> exists s d', lex (Out, d) p = Some (s, d') /\ (d + 1 <= d')%Z).
  { intros [|x p] q E P Q; [congruence|]. injection E as <- E. cbn [lex]. rewrite O.
    apply app_eq_app in E as (l & [[E' E]|[-> E]]); [eapply B2; eauto|].
    destruct l as [|y l]; simpl in E; [rewrite app_nil_r; exists Out, (d + 1)%Z; split; [exact B1|lia]|].
    injection E as _ E. symmetry in E. apply app_eq_nil in E as [_ ->]. congruence. }
  assert (W : lex (Out, d) (o :: b ++ [c]) = Some (Out, d)).
  { cbn [lex]. rewrite O, lex_app, B1. cbn [lex]. rewrite C. repeat f_equal; lia. }
  split; [split; [exact W|]|exact K].
  intros p q E. destruct p as [|x p]; [exists Out, d; split; [auto|lia]|].
  destruct q as [|y q]; [rewrite app_nil_r in E; rewrite <- E; exists Out, d; split; [exact W|lia]|].
  destruct (K (x :: p) (y :: q)) as (s & d' & H & L); auto; try congruence. exists s, d'. split; [auto|lia].
Qed.

Lemma level_write j : json_ok j -> forall d, level d (write j).
Proof.
  induction j as [|b|t|s|l IH|l IH] using json_ind'; intros OK d.
  - apply level_plain. unfold s_null. repeat (apply Forall_cons; [intros ?; reflexivity|]). constructor.
  - destruct b; apply level_plain; repeat (apply Forall_cons; [intros ?; reflexivity|]); constructor.
  - destruct OK as (_ & c & t' & -> & Hc & Ht). apply level_plain. constructor; [now apply digit_plain|].
    eapply Forall_impl; [|exact Ht]. intros; now apply num_plain.
  - apply level_str.
  - apply json_ok_arr in OK. cbn [write]. apply level_wrap; try reflexivity. apply level_sep. apply Forall_map.
    rewrite Forall_forall in *. intros x Hx. apply IH; auto.
  - apply json_ok_obj in OK. rewrite write_obj. apply level_wrap; try reflexivity. apply level_sep. apply Forall_map.
    rewrite Forall_forall in *. intros [k v] Hx. apply level_app; [apply level_str|]. apply level_cons; [apply colon_plain|].
    exact (IH _ Hx (OK _ Hx) (d + 1)%Z).
Qed.

(* ---- objects ---- *)

Definition is_object (j : json) : Prop := exists l, j = JObj l.

Lemma object_parts j p q : is_object j -> json_ok j -> write j = p ++ q -> p <> [] -> q <> [] ->
  exists s d, lex (Out, 0%Z) p = Some (s, d) /\ (1 <= d)%Z /\ lex (s, d) q = Some (Out, 0%Z).
Proof.
  intros (l & ->) OK E P Q. pose proof (level_write _ OK 0%Z) as [W _].
  apply json_ok_obj in OK. rewrite write_obj in *.
  destruct (level_wrap 0 c_lbrace c_rbrace (sep (map write_member l))) as [_ K]; try reflexivity.
  { apply level_sep. apply Forall_map. rewrite Forall_forall in *. intros [k v] Hx. apply level_app; [apply level_str|].
    apply level_cons; [apply colon_plain|]. apply level_write. exact (OK _ Hx). }
  destruct (K p q E P Q) as (s & d & H & L). exists s, d. split; [exact H|]. split; [lia|].
  rewrite E, lex_app, H in W. exact W.
Qed.

(* inside and outside of strings are never confused *)
Lemma lex_swap b : forall d1 d2 s1 s2, lex (Inside, d1) b = Some s1 -> lex (Out, d2) b = Some s2 ->
  (fst s1 = Inside /\ fst s2 = Out) \/ (fst s1 = Out /\ fst s2 = Inside).
Proof.
  induction b as [|c b IH]; intros d1 d2 s1 s2 H1 H2; simpl in *.
  - injection H1 as <-. injection H2 as <-. auto.
  - destruct (Nat.eqb c c_quote).
    + destruct (IH d2 d1 s2 s1 H2 H1) as [[? ?]|[? ?]]; auto.
    + destruct (Nat.eqb c c_back); [discriminate|].
      destruct (Nat.eqb c c_lbrack || Nat.eqb c c_lbrace); [eapply IH; eauto|].
      destruct (Nat.eqb c c_rbrack || Nat.eqb c c_rbrace); eapply IH; eauto.
Qed.

Lemma prefix_not_whole j n depth : is_object j -> json_ok j -> n < length (write j) -> ~ whole depth (firstn n (write j)).
Proof.
  intros O OK L H. apply whole_lex with (d := 0%Z) in H as [N H].
  destruct (object_parts j (firstn n (write j)) (skipn n (write j))) as (s & d & A & B & _); auto.
  - now rewrite firstn_skipn.
  - intros E. apply (f_equal (@length _)) in E. rewrite skipn_length in E. simpl in E. lia.
  - rewrite A in H. injection H as _ ->. lia.
Qed.

Lemma suffix_not_whole j n depth : is_object j -> json_ok j -> 0 < n -> ~ whole depth (skipn n (write j)).
Proof.
  intros O OK L H. apply whole_lex with (d := 0%Z) in H as [N H].
  destruct (object_parts j (firstn n (write j)) (skipn n (write j))) as (s & d & A & B & C); auto.
  { now rewrite firstn_skipn. }
  { intros E. destruct n as [|n]; [lia|]. destruct (write j) eqn:W; [|discriminate]. destruct O as (l & ->). discriminate. }
  generalize dependent (skipn n (write j)). clear - B. intros b N H C.
  pose proof (fun p => lex_shift b p 0 d) as Sh. simpl in Sh. destruct s.
  - rewrite Sh, H in C. simpl in C. injection C as C. lia.
  - destruct (lex_swap b d 0%Z _ _ C H) as [[? ?]|[? ?]]; discriminate.
  - destruct b as [|c b]; [congruence|]. simpl in C, H. destruct (Nat.eqb c c_quote).
    + rewrite (lex_shift b Inside 0 d : lex (Inside, d) b = _), H in C. simpl in C. injection C as C. lia.
    + destruct (Nat.eqb c c_back); [discriminate|].
      assert (X : exists d', lex (Out, d') b = Some (Out, 0%Z)).
      { destruct (Nat.eqb c c_lbrack || Nat.eqb c c_lbrace); [eauto|]. destruct (Nat.eqb c c_rbrack || Nat.eqb c c_rbrace); eauto. }
      destruct X as (d' & X). destruct (lex_swap b _ _ _ _ C X) as [[? ?]|[? ?]]; discriminate.
Qed.

Lemma read_json_prefix j n : is_object j -> json_ok j -> n < length (write j) -> read_json (firstn n (write j)) = None.
Proof.
  intros. destruct (read_json _) eqn:E; auto. apply read_json_whole in E. exfalso. eapply prefix_not_whole; eauto.
Qed.
Lemma read_json_suffix j n : is_object j -> json_ok j -> 0 < n -> read_json (skipn n (write j)) = None.
Proof.
  intros. destruct (read_json _) eqn:E; auto. apply read_json_whole in E. exfalso. eapply suffix_not_whole; eauto.
Qed.
Lemma raw_value_prefix j n : is_object j -> json_ok j -> n < length (write j) -> raw_value (firstn n (write j)) = None.
Proof.
  intros. destruct (raw_value _) eqn:E; auto. apply raw_value_whole in E. exfalso. eapply prefix_not_whole; eauto.
Qed.

(* ---- lines ---- *)

Lemma lines_from_plain body : forall acc, Forall (fun c => 32 <= c) body ->
  lines_from acc body = match rev body ++ acc with [] => [] | a => [rev a] end.
Proof.
  induction body as [|c body IH]; intros acc H; [now destruct acc|]. inversion H; subst. cbn [lines_from].
  destruct (Nat.eqb_spec c 10); [lia|]. rewrite IH by auto. cbn [rev]. now rewrite <- app_assoc.
Qed.
Lemma lines_one body : Forall (fun c => 32 <= c) body -> body <> [] -> lines body = [body].
Proof.
  intros H N. unfold lines. rewrite lines_from_plain, app_nil_r by auto.
  destruct (rev body) eqn:E; [apply (f_equal (@rev _)) in E; rewrite rev_involutive in E; now subst|].
  rewrite <- E, rev_involutive. reflexivity.
Qed.
Lemma lines_cons body rest : Forall (fun c => 32 <= c) body -> lines (body ++ 10 :: rest) = body :: lines rest.
Proof. intros H. unfold lines. rewrite lines_from_app, app_nil_r, chomp_printable by auto. reflexivity. Qed.

Section Cut.
Context {L : Type} (enc : L -> json).

(* the lines read of a file cut at n are those of the first k batches, whole *)
Lemma cut_lines ls : Forall (fun x => json_ok (enc x) /\ is_object (enc x)) ls -> forall n raw,
  read_results_lines (firstn n (flat_map (packed_line enc) ls)) = Some raw ->
  exists k, raw = map (packed enc) (firstn k ls) /\
    (firstn n (flat_map (packed_line enc) ls) = flat_map (packed_line enc) (firstn k ls) \/
     firstn n (flat_map (packed_line enc) ls) ++ [10] = flat_map (packed_line enc) (firstn k ls)).
Proof.
  intros H. induction H as [|x ls [OK O] _ IH]; intros n raw R.
  - cbn [flat_map] in *. rewrite firstn_nil in *. injection R as <-. exists 0. auto.
  - cbn [flat_map] in *. change (packed_line enc x) with (write (enc x) ++ [10]) in *.
    pose proof (write_printable _ OK) as P.
    destruct (Nat.lt_ge_cases (length (write (enc x))) n) as [G|G].
    + assert (E : firstn n ((write (enc x) ++ [10]) ++ flat_map (packed_line enc) ls) =
                  write (enc x) ++ 10 :: firstn (n - S (length (write (enc x)))) (flat_map (packed_line enc) ls)).
      { rewrite firstn_app, app_length. simpl length. rewrite firstn_all2 by (rewrite app_length; simpl; lia).
        rewrite <- app_assoc. simpl. do 3 f_equal. lia. }
      rewrite E in *. unfold read_results_lines in R. rewrite lines_cons in R by auto. cbn [all_some] in R.
      rewrite raw_value_write in R by auto. destruct (all_some raw_value _) as [ys|] eqn:A; [|discriminate]. injection R as <-.
      destruct (IH _ _ A) as (k & -> & D). exists (S k). split; [reflexivity|]. cbn [firstn flat_map].
      change (packed_line enc x) with (write (enc x) ++ [10]).
      destruct D as [D|D]; [left|right]; rewrite <- D; rewrite <- !app_assoc; reflexivity.
    + rewrite <- app_assoc in R |- *. rewrite firstn_app in R |- *.
      replace (n - length (write (enc x))) with 0 in * by lia. cbn [firstn] in *. rewrite app_nil_r in *.
      destruct (Nat.eq_dec n (length (write (enc x)))) as [->|N].
      * rewrite firstn_all in *. unfold read_results_lines in R. rewrite lines_one in R; auto.
        2:{ intros E. destruct O as (l & E'). rewrite E' in E. discriminate. }
        cbn [all_some] in R. rewrite raw_value_write in R by auto. injection R as <-. exists 1. split; [reflexivity|].
        right. cbn [firstn flat_map]. now rewrite app_nil_r.
      * destruct n as [|n]; [cbn [firstn] in *; injection R as <-; exists 0; auto|].
        unfold read_results_lines in R. rewrite lines_one in R.
        -- cbn [all_some] in R. rewrite raw_value_prefix in R by (auto; lia). discriminate.
        -- rewrite <- (firstn_skipn (S n)) in P. now apply Forall_app in P as [P _].
        -- destruct O as (l & ->). discriminate.
Qed.
End Cut.
