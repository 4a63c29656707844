From Coq Require Import NArith.
From Verif Require Import Base JsonModel JsonProofs SpellSpec.
Import ListNotations.

Scheme spells_mut := Induction for spells Sort Prop
  with elems_mut := Induction for spells_elems Sort Prop
  with members_mut := Induction for spells_members Sort Prop.
Combined Scheme spells_all from spells_mut, elems_mut, members_mut.

(* ---- blanks ---- *)
Lemma is_ws_iff c : is_ws c = true <-> In c [32; 9; 10; 13].
Proof.
  unfold is_ws. rewrite !Bool.orb_true_iff, !Nat.eqb_eq. cbn [In]. intuition congruence.
Qed.
Lemma skip_blanks w b : blanks w -> skip_ws (w ++ b) = skip_ws b.
Proof. induction 1 as [|c w C _ IH]; [reflexivity|]. apply is_ws_iff in C. cbn [app skip_ws]. now rewrite C. Qed.
Lemma skip_split b : exists w, blanks w /\ b = w ++ skip_ws b.
Proof.
  induction b as [|c b (w & W & E)]; [exists []; repeat constructor|]. cbn [skip_ws]. destruct (is_ws c) eqn:C.
  - exists (c :: w). split; [constructor; [now apply is_ws_iff|exact W]|]. cbn [app]. congruence.
  - exists []. split; [constructor|reflexivity].
Qed.
Lemma skip_id c b : is_ws c = false -> skip_ws (c :: b) = c :: b.
Proof. intros E. cbn [skip_ws]. now rewrite E. Qed.
Lemma not_ws c : 13 < c -> c <> 32 -> is_ws c = false.
Proof. intros H1 H2. destruct (is_ws c) eqn:E; [|reflexivity]. apply is_ws_iff in E. cbn [In] in E. lia. Qed.
Lemma skip_all b : skip_ws b = [] -> blanks b.
Proof. intros E. destruct (skip_split b) as (w & W & B). rewrite E, app_nil_r in B. now subst. Qed.

(* ---- strings ---- *)
Lemma hex_iff b n : hex b n <-> hex_val b = Some n.
Proof.
  unfold hex, hex_val, is_digit.
  destruct (Nat.leb_spec 48 b), (Nat.leb_spec b 57); cbn [andb]; try (split; [intros; f_equal; lia|intros E; injection E; lia]);
    destruct (Nat.leb_spec 97 b), (Nat.leb_spec b 102); cbn [andb]; try (split; [intros; f_equal; lia|intros E; injection E; lia]);
    destruct (Nat.leb_spec 65 b), (Nat.leb_spec b 70); cbn [andb]; try (split; [intros; f_equal; lia|intros E; injection E; lia]);
    (split; [lia|discriminate]).
Qed.
Lemma short_iff e c : In (e, c) short_escapes <-> unescape e = Some c.
Proof.
  unfold short_escapes, unescape. cbn [In]. split.
  - intros I. repeat destruct I as [I|I]; try (injection I as <- <-; reflexivity); contradiction.
  - repeat match goal with |- context [Nat.eqb ?x ?y] => destruct (Nat.eqb_spec x y) as [->|_] end; intros I; try discriminate; injection I as <-; auto 20.
Qed.
Lemma not_u e c : In (e, c) short_escapes -> e <> 117.
Proof. unfold short_escapes. cbn [In]. intros I. repeat destruct I as [I|I]; try (injection I as <- <-); try congruence; try contradiction; lia. Qed.

Lemma unit_iff n h1 h2 h3 h4 : unit_of n [h1; h2; h3; h4] <-> hex4 h1 h2 h3 h4 = Some n.
Proof.
  unfold unit_of, hex4. split.
  - intros (a1 & a2 & a3 & a4 & x1 & x2 & x3 & x4 & E & X1 & X2 & X3 & X4 & ->). injection E as <- <- <- <-.
    apply hex_iff in X1, X2, X3, X4. rewrite X1, X2, X3, X4. f_equal. lia.
  - destruct (hex_val h1) as [x1|] eqn:E1; [|discriminate]. destruct (hex_val h2) as [x2|] eqn:E2; [|discriminate]. destruct (hex_val h3) as [x3|] eqn:E3; [|discriminate].
    destruct (hex_val h4) as [x4|] eqn:E4; [|discriminate]. apply hex_iff in E1, E2, E3, E4.
    remember (4096 * N.of_nat x1 + 256 * N.of_nat x2 + 16 * N.of_nat x3 + N.of_nat x4)%N as q eqn:Q. intros E. injection E as <-.
    exists h1, h2, h3, h4, x1, x2, x3, x4. repeat split; auto. lia.
Qed.
Lemma unit_four n u : unit_of n u -> exists h1 h2 h3 h4, u = [h1; h2; h3; h4] /\ hex4 h1 h2 h3 h4 = Some n.
Proof. intros H. pose proof H as (h1 & h2 & h3 & h4 & _ & _ & _ & _ & -> & _). exists h1, h2, h3, h4. split; [reflexivity|now apply unit_iff]. Qed.
Lemma unit_bound n u : unit_of n u -> (n < 65536)%N.
Proof. intros (h1 & h2 & h3 & h4 & x1 & x2 & x3 & x4 & -> & X1 & X2 & X3 & X4 & ->). unfold hex in *. lia. Qed.

Lemma divmod a b q r : (a = b * q + r -> r < b -> a / b = q /\ a mod b = r)%N.
Proof. intros E L. split; [symmetry; apply (N.div_unique a b q r); lia|symmetry; apply (N.mod_unique a b q r); lia]. Qed.
Lemma utf8_iff n s : (n < 2097152)%N -> (utf8_of n s <-> utf8 n = s).
Proof.
  intros B. unfold utf8. split.
  - intros H. destruct H as [a A|a b A0 B0 L|a b c A0 B0 C0 L|a b c d A0 B0 C0 D0 L].
    + destruct (N.ltb_spec a 128); [reflexivity|lia].
    + destruct (N.ltb_spec (a * 64 + b) 128); [lia|]. destruct (N.ltb_spec (a * 64 + b) 2048); [|lia].
      destruct (divmod (a * 64 + b) 64 a b ltac:(lia) B0) as [-> ->]. reflexivity.
    + set (n := ((a * 64 + b) * 64 + c)%N) in *. destruct (N.ltb_spec n 128); [lia|]. destruct (N.ltb_spec n 2048); [lia|]. destruct (N.ltb_spec n 65536); [|lia].
      destruct (divmod n 64 (a * 64 + b) c ltac:(lia) C0) as [-> ->]. destruct (divmod (a * 64 + b) 64 a b ltac:(lia) B0) as [_ ->].
      destruct (divmod n 4096 a (b * 64 + c) ltac:(lia) ltac:(lia)) as [-> _]. reflexivity.
    + set (n := (((a * 64 + b) * 64 + c) * 64 + d)%N) in *. destruct (N.ltb_spec n 128); [lia|]. destruct (N.ltb_spec n 2048); [lia|]. destruct (N.ltb_spec n 65536); [lia|].
      destruct (divmod n 64 ((a * 64 + b) * 64 + c) d ltac:(lia) D0) as [-> ->]. destruct (divmod ((a * 64 + b) * 64 + c) 64 (a * 64 + b) c ltac:(lia) C0) as [_ ->].
      destruct (divmod n 4096 (a * 64 + b) (c * 64 + d) ltac:(lia) ltac:(lia)) as [-> _]. destruct (divmod (a * 64 + b) 64 a b ltac:(lia) B0) as [_ ->].
      destruct (divmod n 262144 a ((b * 64 + c) * 64 + d) ltac:(lia) ltac:(lia)) as [-> _]. reflexivity.
  - assert (D : forall x, x = (x / 64 * 64 + x mod 64)%N /\ (x mod 64 < 64)%N) by (intros x; split; [rewrite (N.div_mod x 64) at 1; lia|apply N.mod_lt; lia]).
    assert (D2 : (n / 4096 = n / 64 / 64)%N) by (rewrite N.div_div by lia; reflexivity).
    assert (D3 : (n / 262144 = n / 64 / 64 / 64)%N) by (rewrite !N.div_div by lia; reflexivity).
    destruct (D n) as [E1 L1]. destruct (D (n / 64)%N) as [E2 L2]. destruct (D (n / 64 / 64)%N) as [E3 L3]. rewrite D2, D3.
    set (a := (n / 64)%N) in *. set (r1 := (n mod 64)%N) in *. clearbody a r1. clear D D2 D3.
    set (a2 := (a / 64)%N) in *. set (r2 := (a mod 64)%N) in *. clearbody a2 r2. set (a3 := (a2 / 64)%N) in *. set (r3 := (a2 mod 64)%N) in *. clearbody a3 r3.
    destruct (N.ltb_spec n 128); [intros <-; now constructor|]. destruct (N.ltb_spec n 2048).
    { intros <-. rewrite E1. apply u8_two; lia. }
    destruct (N.ltb_spec n 65536).
    { intros <-. rewrite E1, E2. apply u8_three; lia. }
    intros <-. rewrite E1, E2, E3. apply u8_four; lia.
Qed.

Lemma char_read c b rest s r : spells_char c b -> read_str rest = Some (s, r) -> read_str (b ++ rest) = Some (c ++ s, r).
Proof.
  intros H R. rewrite read_str_eq. destruct H as [c L Q B|e c I|n u s0 U L S0|n m u v s0 U V L1 L2 S0]; cbn [app].
  - destruct (Nat.eqb_spec c 34); [contradiction|]. destruct (Nat.eqb_spec c 92); [contradiction|]. destruct (Nat.ltb_spec c 32); [lia|]. now rewrite R.
  - change (Nat.eqb 92 34) with false. change (Nat.eqb 92 92) with true. cbn match. pose proof (not_u _ _ I) as U. destruct (Nat.eqb_spec e 117); [contradiction|].
    apply short_iff in I. rewrite I, R. reflexivity.
  - change (Nat.eqb 92 34) with false. change (Nat.eqb 92 92) with true. change (Nat.eqb 117 117) with true. cbn match.
    pose proof (unit_bound _ _ U). apply utf8_iff in S0; [|lia]. destruct (unit_four _ _ U) as (h1 & h2 & h3 & h4 & -> & X). cbn [app].
    unfold read_unicode. rewrite X. replace ((n <? 55296) || (57344 <=? n))%N with true by (symmetry; apply Bool.orb_true_iff; rewrite N.ltb_lt, N.leb_le; exact L).
    rewrite R, S0. reflexivity.
  - change (Nat.eqb 92 34) with false. change (Nat.eqb 92 92) with true. change (Nat.eqb 117 117) with true. cbn match.
    apply utf8_iff in S0; [|lia]. destruct (unit_four _ _ U) as (h1 & h2 & h3 & h4 & -> & X). destruct (unit_four _ _ V) as (g1 & g2 & g3 & g4 & -> & Y). cbn [app].
    unfold read_unicode. rewrite X, Y. change (Nat.eqb 92 92) with true. change (Nat.eqb 117 117) with true. cbn [andb].
    destruct (N.ltb_spec n 55296); [lia|]. destruct (N.leb_spec 57344 n); [lia|]. cbn [orb]. destruct (N.ltb_spec n 56320); [|lia].
    destruct (N.leb_spec 56320 m); [|lia]. destruct (N.ltb_spec m 57344); [|lia]. cbn [andb]. rewrite R, S0. reflexivity.
Qed.
Lemma chars_read s b : spells_chars s b -> forall rest, read_str (b ++ 34 :: rest) = Some (s, rest).
Proof.
  induction 1 as [|c s b bs C _ IH]; intros rest; [now rewrite read_str_eq|]. rewrite <- app_assoc. apply char_read; auto.
Qed.
Lemma read_chars : forall n b, length b <= n -> forall s r, read_str b = Some (s, r) -> exists v, b = v ++ 34 :: r /\ spells_chars s v.
Proof.
  induction n as [|n IH]; intros [|c b] L s r; rewrite read_str_eq; try discriminate; [cbn in L; lia|]. cbn [length] in L.
  destruct (Nat.eqb_spec c 34) as [->|Q]. { intros E. injection E as <- <-. exists []. split; [reflexivity|constructor]. }
  destruct (Nat.eqb_spec c 92) as [->|B].
  - destruct b as [|e b]; [discriminate|]. cbn [length] in L. destruct (Nat.eqb_spec e 117) as [->|U].
    + destruct (read_unicode b) as [[x b3]|] eqn:U; [|discriminate]. pose proof (read_unicode_length _ _ _ U) as LU.
      destruct (read_str b3) as [[s' r']|] eqn:R; [|discriminate]. intros E. injection E as <- <-. destruct (IH b3 ltac:(lia) _ _ R) as (v & -> & V).
      apply read_unicode_split in U as [(h1 & h2 & h3 & h4 & -> & X & D)|(h1 & h2 & h3 & h4 & g1 & g2 & g3 & g4 & n1 & n2 & -> & X & Y & D1 & D2 & ->)].
      * apply unit_iff in X. pose proof (unit_bound _ _ X). exists ((92 :: 117 :: [h1; h2; h3; h4]) ++ v). split; [reflexivity|]. constructor; [|exact V].
        apply (ch_unit x); [exact X|exact D|]. apply utf8_iff; [lia|reflexivity].
      * apply unit_iff in X, Y. exists ((92 :: 117 :: [h1; h2; h3; h4] ++ 92 :: 117 :: [g1; g2; g3; g4]) ++ v). split; [reflexivity|]. constructor; [|exact V].
        apply (ch_units n1 n2); [exact X|exact Y|exact D1|exact D2|]. apply utf8_iff; [lia|reflexivity].
    + destruct (unescape e) as [x|] eqn:E1; [|discriminate]. destruct (read_str b) as [[s' r']|] eqn:R; [|discriminate]. intros E. injection E as <- <-.
      destruct (IH b ltac:(lia) _ _ R) as (v & -> & V). exists ([92; e] ++ v). split; [reflexivity|]. apply (cs_more [x]); [|exact V]. constructor. now apply short_iff.
  - destruct (Nat.ltb_spec c 32) as [|C]; [discriminate|]. destruct (read_str b) as [[s' r']|] eqn:R; [|discriminate]. intros E. injection E as <- <-.
    destruct (IH b ltac:(lia) _ _ R) as (v & -> & V). exists ([c] ++ v). split; [reflexivity|]. apply (cs_more [c]); [|exact V]. now constructor.
Qed.

(* ---- numbers ---- *)
Lemma digit_iff c : is_digit c = true <-> digit c.
Proof. unfold is_digit, digit. rewrite Bool.andb_true_iff, !Nat.leb_le. tauto. Qed.
Definition number_char (c : byte) : Prop := digit c \/ In c [43; 45; 46; 101; 69].
Lemma num_iff c : is_num c = true <-> number_char c.
Proof. unfold is_num, number_char. rewrite !Bool.orb_true_iff, digit_iff, !Nat.eqb_eq. cbn [In]. intuition congruence. Qed.
Lemma span_split b t r : span_num b = (t, r) -> b = t ++ r.
Proof.
  revert t r. induction b as [|c b IH]; intros t r; cbn [span_num]. { intros E. injection E as <- <-. auto. }
  destruct (is_num c) eqn:C; [|intros E; injection E as <- <-; auto]. destruct (span_num b) as [t' r'] eqn:E'. intros E. injection E as <- <-.
  now rewrite (IH _ _ eq_refl).
Qed.

Definition no_digit (b : bytes) : Prop := match b with [] => True | c :: _ => ~ digit c end.
Lemma skip_digits_split b : exists d, b = d ++ skip_digits b /\ Forall digit d.
Proof.
  induction b as [|c b (d & E & D)]; [exists []; auto|]. cbn [skip_digits]. destruct (is_digit c) eqn:C; [|exists []; auto].
  exists (c :: d). split; [cbn [app]; now rewrite <- E|]. constructor; [now apply digit_iff|exact D].
Qed.
Lemma skip_digits_app d r : Forall digit d -> no_digit r -> skip_digits (d ++ r) = r.
Proof.
  intros D R. induction D as [|c d C _ IH]; cbn [app].
  - destruct r as [|c r]; [reflexivity|]. cbn [skip_digits]. cbn [no_digit] in R. destruct (is_digit c) eqn:X; [|reflexivity]. now apply digit_iff in X.
  - cbn [skip_digits]. apply digit_iff in C. now rewrite C.
Qed.
Lemma skip1_split b r : skip_digits1 b = Some r -> exists d, b = d ++ r /\ digits d.
Proof.
  destruct b as [|c b]; [discriminate|]. cbn [skip_digits1]. destruct (is_digit c) eqn:C; [|discriminate]. intros E. injection E as <-.
  destruct (skip_digits_split b) as (d & E & D). exists (c :: d). split; [cbn [app]; now rewrite <- E|]. split; [discriminate|]. constructor; [now apply digit_iff|exact D].
Qed.
Lemma skip1_app d r : digits d -> no_digit r -> skip_digits1 (d ++ r) = Some r.
Proof.
  intros [N D] R. destruct D as [|c d C D]; [congruence|]. cbn [app skip_digits1]. apply digit_iff in C. rewrite C. now rewrite skip_digits_app.
Qed.

Definition exponent (x : bytes) : Prop := x = [] \/ exists e s d, In e [101; 69] /\ In s [[]; [43]; [45]] /\ digits d /\ x = e :: s ++ d.
Definition fraction (x : bytes) : Prop := x = [] \/ exists d, digits d /\ x = 46 :: d.
Lemma exponent_iff b : is_exponent b = true <-> exponent b.
Proof.
  destruct b as [|c b]; cbn [is_exponent]. { split; [now left|reflexivity]. }
  rewrite Bool.andb_true_iff, Bool.orb_true_iff, !Nat.eqb_eq. split.
  - intros [C X]. right.
    destruct (skip_digits1 _) as [[|]|] eqn:S0; try discriminate. apply skip1_split in S0. destruct S0 as (d & E & D). rewrite app_nil_r in E.
    destruct b as [|s b]; [destruct D as [N _]; congruence|].
    destruct (Nat.eqb_spec s 43) as [->|]; [|destruct (Nat.eqb_spec s 45) as [->|]]; cbn [orb] in E.
    + exists c, [43], d. subst b. cbn [In]. intuition.
    + exists c, [45], d. subst b. cbn [In]. intuition.
    + exists c, [], d. subst d. cbn [In]. intuition.
  - intros [|(e & s & d & Ie & Is & D & E)]; [discriminate|]. injection E as -> ->. split; [cbn [In] in Ie; intuition|].
    assert (K : skip_digits1 d = Some []) by (rewrite <- (app_nil_r d); now apply skip1_app).
    destruct Is as [<-|[<-|[<-|[]]]]; cbn [app].
    + destruct D as [N D]. destruct D as [|x d Dx D]; [congruence|]. unfold digit in Dx.
      destruct (Nat.eqb_spec x 43); [lia|]. destruct (Nat.eqb_spec x 45); [lia|]. cbn [orb]. now rewrite K.
    + cbn [Nat.eqb orb]. now rewrite K.
    + cbn [Nat.eqb orb]. now rewrite K.
Qed.
Lemma exponent_no_digit b : exponent b -> no_digit b.
Proof. intros [->|(e & s & d & I & _ & _ & ->)]; [exact Logic.I|]. cbn [no_digit]. unfold digit. cbn [In] in I. lia. Qed.
Lemma exponent_no_dot b : exponent b -> hd_error b <> Some 46.
Proof. intros [->|(e & s & d & I & _ & _ & ->)]; [discriminate|]. cbn [hd_error]. cbn [In] in I. intros E. injection E as ->. lia. Qed.
Lemma fraction_iff b : is_fraction b = true <-> exists f x, b = f ++ x /\ fraction f /\ exponent x.
Proof.
  split.
  - destruct b as [|c b]; cbn [is_fraction]. { exists [], []. repeat split; now left. }
    destruct (Nat.eqb_spec c 46) as [->|].
    + destruct (skip_digits1 b) as [r|] eqn:S0; [|discriminate]. intros X. apply exponent_iff in X. apply skip1_split in S0. destruct S0 as (d & -> & D).
      exists (46 :: d), r. repeat split; [|exact X]. right. eauto.
    + intros X. apply exponent_iff in X. exists [], (c :: b). repeat split; [now left|exact X].
  - intros (f & x & -> & [->|(d & D & ->)] & X).
    + cbn [app]. pose proof (exponent_no_dot x X) as N. destruct x as [|c x]; [reflexivity|]. unfold is_fraction. cbn [hd_error] in N.
      destruct (Nat.eqb_spec c 46) as [->|]; [exfalso; now apply N|]. now apply exponent_iff.
    + cbn [app is_fraction Nat.eqb]. rewrite skip1_app; [now apply exponent_iff|exact D|now apply exponent_no_digit].
Qed.
Lemma fraction_no_digit f x : fraction f -> exponent x -> no_digit (f ++ x).
Proof. intros [->|(d & _ & ->)] X; [now apply exponent_no_digit|]. cbn [app no_digit]. unfold digit. lia. Qed.
Definition integer (i : bytes) : Prop := i = [48] \/ digits i /\ hd_error i <> Some 48.
Lemma unsigned_iff b : is_unsigned b = true <-> exists i f x, b = i ++ f ++ x /\ integer i /\ fraction f /\ exponent x.
Proof.
  split.
  - destruct b as [|c b]; [discriminate|]. cbn [is_unsigned]. destruct (Nat.eqb_spec c 48) as [->|N].
    + intros X. apply fraction_iff in X. destruct X as (f & x & -> & F & X). exists [48], f, x. repeat split; auto. now left.
    + destruct (skip_digits1 (c :: b)) as [r|] eqn:S0; [|discriminate]. intros X. apply fraction_iff in X. destruct X as (f & x & -> & F & X).
      apply skip1_split in S0. destruct S0 as (d & E & D). exists d, f, x. repeat split; auto. right. split; [exact D|].
      destruct d as [|y d]; [discriminate|]. cbn [app] in E. injection E as <- _. cbn [hd_error]. intros H. now injection H as ->.
  - intros (i & f & x & -> & I & F & X). assert (Y : is_fraction (f ++ x) = true) by (apply fraction_iff; eauto).
    destruct I as [->|[D N]]; [exact Y|]. pose proof (skip1_app i (f ++ x) D (fraction_no_digit f x F X)) as K.
    destruct i as [|c i]; [destruct D as [N' _]; exfalso; now apply N'|]. cbn [app] in *. unfold is_unsigned. cbn [hd_error] in N.
    destruct (Nat.eqb_spec c 48) as [->|]; [exfalso; now apply N|]. now rewrite K.
Qed.
Lemma integer_head i : integer i -> exists c t, i = c :: t /\ digit c /\ Forall digit t.
Proof.
  intros [->|[[N D] _]]; [exists 48, []; split; [reflexivity|]; split; [unfold digit; lia|constructor]|].
  destruct D as [|c t C D]; [congruence|]. eauto.
Qed.
Lemma number_iff b : is_number b = true <-> number b.
Proof.
  split.
  - destruct b as [|c b]; [discriminate|]. cbn [is_number]. destruct (Nat.eqb_spec c 45) as [->|N]; intros U; apply unsigned_iff in U; destruct U as (i & f & x & E & I & F & X).
    + exists [45], i, f, x. rewrite E. repeat split; auto.
    + exists [], i, f, x. rewrite E. repeat split; auto.
  - intros (s & i & f & x & -> & S0 & I & F & X).
    assert (U : is_unsigned (i ++ f ++ x) = true) by (apply unsigned_iff; exists i, f, x; auto).
    destruct S0 as [->| ->]; [|exact U]. destruct (integer_head i I) as (c & t & -> & C & _). cbn [app] in *. unfold is_number. unfold digit in C.
    destruct (Nat.eqb_spec c 45); [lia|exact U].
Qed.
Lemma number_shape b : number b -> exists c t, b = c :: t /\ (digit c \/ c = 45) /\ Forall number_char t.
Proof.
  intros (s & i & f & x & -> & S0 & I & F & X).
  assert (L : forall d, Forall digit d -> Forall number_char d) by (intros d; apply Forall_impl; intros a A; now left).
  assert (FX : Forall number_char (f ++ x)).
  { apply Forall_app. split.
    - destruct F as [->|(d & [_ D] & ->)]; [constructor|]. constructor; [right; cbn; tauto|auto].
    - destruct X as [->|(e & q & d & Ie & Iq & [_ D] & ->)]; [constructor|]. constructor; [right; cbn in Ie |- *; tauto|]. apply Forall_app. split; [|auto].
      destruct Iq as [<-|[<-|[<-|[]]]]; repeat constructor; right; cbn; tauto. }
  destruct (integer_head i I) as (c & t & -> & C & T). destruct S0 as [->| ->]; cbn [app].
  - exists c, (t ++ f ++ x). split; [reflexivity|]. split; [now left|]. apply Forall_app. auto.
  - exists 45, (c :: t ++ f ++ x). split; [reflexivity|]. split; [now right|]. constructor; [now left|]. apply Forall_app. auto.
Qed.

(* ---- values ---- *)
Lemma value_eq d b : read_value d b =
  match skip_ws b with
  | [] => None
  | c :: b1 =>
      if Nat.eqb c 34 then match read_str b1 with Some (s, r) => Some (JStr s, r) | None => None end
      else if Nat.eqb c 91 then
        match d with
        | S (S d') =>
            match skip_ws b1 with
            | x :: b2 => if Nat.eqb x 93 then Some (JArr [], b2)
                         else match read_elems (read_value (S d')) (length b1) b1 with Some (l, r) => Some (JArr l, r) | None => None end
            | [] => None
            end
        | _ => None
        end
      else if Nat.eqb c 123 then
        match d with
        | S (S d') =>
            match skip_ws b1 with
            | x :: b2 => if Nat.eqb x 125 then Some (JObj [], b2)
                         else match read_members (read_value (S d')) (length b1) b1 with Some (l, r) => Some (JObj l, r) | None => None end
            | [] => None
            end
        | _ => None
        end
      else if is_digit c || Nat.eqb c 45 then let '(t, r) := span_num b1 in if is_number (c :: t) then Some (JNum (c :: t), r) else None
      else match strip s_null (c :: b1) with
           | Some r => Some (JNull, r)
           | None => match strip s_true (c :: b1) with
                     | Some r => Some (JBool true, r)
                     | None => match strip s_false (c :: b1) with Some r => Some (JBool false, r) | None => None end
                     end
           end
  end.
Proof. destruct d as [|[|d]]; reflexivity. Qed.
Lemma value_blanks d w b : blanks w -> read_value d (w ++ b) = read_value d b.
Proof. intros W. rewrite (value_eq d (w ++ b)), (value_eq d b), (skip_blanks w b W). reflexivity. Qed.

Lemma strip_split p b r : strip p b = Some r -> b = p ++ r.
Proof.
  revert b. induction p as [|x p IH]; intros b; cbn [strip]. { now intros E; injection E as ->. }
  destruct b as [|y b]; [discriminate|]. destruct (Nat.eqb_spec x y) as [->|]; [|discriminate]. intros E. cbn [app]. f_equal. auto.
Qed.
Lemma spells_head j b : spells j b -> exists c t, b = c :: t /\ is_ws c = false /\ c <> 93 /\ c <> 125.
Proof.
  destruct 1; try (eexists _, _; split; [reflexivity|]; split; [reflexivity|]; split; discriminate).
  apply number_shape in H. destruct H as (c & t' & -> & H & _). exists c, t'. split; [reflexivity|]. destruct H as [D| ->]; [unfold digit in D; split; [apply not_ws|]; lia|split; [reflexivity|split; discriminate]].
Qed.
Lemma elems_head l b : spells_elems l b -> length l <= length b /\ forall rest : bytes, exists c t, skip_ws (b ++ rest) = c :: t /\ c <> 93.
Proof.
  induction 1 as [v w1 b w2 W1 V W2|v vs w1 b w2 bs W1 V W2 _ [IH _]]; destruct (spells_head _ _ V) as (c & t & -> & C & N & _).
  - split; [rewrite !app_length; cbn [length]; lia|]. intros rest. rewrite <- app_assoc, skip_blanks by auto. exists c, ((t ++ w2) ++ rest). split; [|exact N].
    cbn [app]. now apply skip_id.
  - split; [rewrite !app_length; cbn [length]; lia|]. intros rest. rewrite <- app_assoc, skip_blanks by auto. eexists c, _. split; [|exact N].
    cbn [app]. now apply skip_id.
Qed.
Lemma members_head l b : spells_members l b -> length l <= length b /\ forall rest : bytes, exists t, skip_ws (b ++ rest) = 34 :: t.
Proof.
  induction 1 as [k v w1 kb w2 w3 b w4 W1 K W2 W3 V W4|k v vs w1 kb w2 w3 b w4 bs W1 K W2 W3 V W4 _ [IH _]].
  - split; [repeat (rewrite app_length; cbn [length]); lia|]. intros rest. rewrite <- app_assoc, skip_blanks by auto. eexists. reflexivity.
  - split; [repeat (rewrite app_length; cbn [length]); lia|]. intros rest. rewrite <- app_assoc, skip_blanks by auto. eexists. reflexivity.
Qed.

Definition ends (rest : bytes) : Prop := match rest with [] => True | c :: _ => is_num c = false end.
Lemma span_ends t rest : Forall number_char t -> ends rest -> span_num (t ++ rest) = (t, rest).
Proof.
  induction 1 as [|c t C _ IH]; intros E; cbn [app span_num].
  - destruct rest as [|c rest]; [reflexivity|]. cbn [span_num]. cbn in E. now rewrite E.
  - apply num_iff in C. rewrite C, (IH E). reflexivity.
Qed.
Lemma blanks_ends w rest : blanks w -> ends rest -> ends (w ++ rest).
Proof.
  intros W E. destruct W as [|c w C _]; [exact E|]. cbn [app ends]. destruct (is_num c) eqn:X; [|reflexivity]. apply num_iff in X.
  unfold number_char, digit in X. cbn [In] in *. lia.
Qed.

Lemma nest_elem v vs d : nesting (JArr (v :: vs)) < S d -> nesting v < d.
Proof. intros H. pose proof (nesting_arr (v :: vs) v (or_introl eq_refl)). lia. Qed.

(* rewriting up to the names of the types of characters *)
Ltac at_ Q := match type of Q with ?a = ?b => match goal with |- context G [match ?x with [] => _ | _ :: _ => _ end] => change x with a end; rewrite Q end.
Lemma spelt_is_read :
  (forall j b, spells j b -> forall d (rest : bytes), nesting j < d -> ends rest -> read_value d (b ++ rest) = Some (j, rest)) /\
  (forall l b, spells_elems l b -> forall d fuel (rest : bytes), (forall v, In v l -> nesting v < d) -> length l <= fuel ->
     read_elems (read_value d) fuel (b ++ 93 :: rest) = Some (l, rest)) /\
  (forall l b, spells_members l b -> forall d fuel (rest : bytes), (forall k v, In (k, v) l -> nesting v < d) -> length l <= fuel ->
     read_members (read_value d) fuel (b ++ 125 :: rest) = Some (l, rest)).
Proof.
  apply spells_all.
  - intros d rest _ _. rewrite value_eq. reflexivity.
  - intros d rest _ _. rewrite value_eq. reflexivity.
  - intros d rest _ _. rewrite value_eq. reflexivity.
  - intros t0 T0 d rest _ E. pose proof T0 as IN. apply number_iff in IN. destruct (number_shape t0 T0) as (c & t & -> & C & F). rewrite value_eq. cbn [app].
    assert (X : (is_digit c || Nat.eqb c 45) = true) by (apply Bool.orb_true_iff; rewrite digit_iff, Nat.eqb_eq; exact C).
    assert (W : is_ws c = false) by (destruct C as [C| ->]; [apply not_ws; unfold digit in C; lia|reflexivity]).
    rewrite (skip_id c _ W). unfold digit in C.
    destruct (Nat.eqb_spec c 34); [lia|]. destruct (Nat.eqb_spec c 91); [lia|]. destruct (Nat.eqb_spec c 123); [lia|]. rewrite X, (span_ends t rest F E), IN. reflexivity.
  - intros s b H d rest _ _. rewrite value_eq. cbn [app]. rewrite (skip_id 34) by reflexivity. change (Nat.eqb 34 34) with true. cbn match.
    rewrite <- app_assoc. cbn [app]. rewrite (chars_read s b H). reflexivity.
  - intros w W d rest N _. destruct d as [|[|d]]; [cbn in N; lia|cbn in N; lia|]. rewrite value_eq. cbn [app]. rewrite (skip_id 91) by reflexivity.
    change (Nat.eqb 91 34) with false. change (Nat.eqb 91 91) with true. cbn match. rewrite <- app_assoc, skip_blanks by auto. reflexivity.
  - intros l b H IH d rest N _. destruct d as [|[|d]]; [cbn in N; lia|cbn in N; lia|]. rewrite value_eq. cbn [app]. rewrite (skip_id 91) by reflexivity.
    change (Nat.eqb 91 34) with false. change (Nat.eqb 91 91) with true. cbn match. rewrite <- app_assoc. cbn [app].
    destruct (elems_head l b H) as [L S0]. destruct (S0 (93 :: rest)) as (c & t & Q & C). at_ Q. destruct (Nat.eqb_spec c 93); [contradiction|].
    rewrite IH; [reflexivity| |rewrite app_length; lia]. intros v I. pose proof (nesting_arr l v I). lia.
  - intros w W d rest N _. destruct d as [|[|d]]; [cbn in N; lia|cbn in N; lia|]. rewrite value_eq. cbn [app]. rewrite (skip_id 123) by reflexivity.
    change (Nat.eqb 123 34) with false. change (Nat.eqb 123 91) with false. change (Nat.eqb 123 123) with true. cbn match. rewrite <- app_assoc, skip_blanks by auto. reflexivity.
  - intros l b H IH d rest N _. destruct d as [|[|d]]; [cbn in N; lia|cbn in N; lia|]. rewrite value_eq. cbn [app]. rewrite (skip_id 123) by reflexivity.
    change (Nat.eqb 123 34) with false. change (Nat.eqb 123 91) with false. change (Nat.eqb 123 123) with true. cbn match. rewrite <- app_assoc. cbn [app].
    destruct (members_head l b H) as [L S0]. destruct (S0 (125 :: rest)) as (t & Q). at_ Q. change (Nat.eqb 34 125) with false. cbn match.
    rewrite IH; [reflexivity| |rewrite app_length; lia]. intros k v I. pose proof (nesting_obj l (k, v) I). cbn [snd] in *. lia.
  - intros v w1 b w2 W1 V IH W2 d [|fuel] rest N F; [cbn in F; lia|]. cbn [read_elems]. rewrite <- !app_assoc, value_blanks by auto.
    rewrite IH; [|apply N; now left|apply blanks_ends; [auto|reflexivity]]. rewrite skip_blanks by auto. reflexivity.
  - intros v vs w1 b w2 bs W1 V IHv W2 E IHl d [|fuel] rest N F; [cbn in F; lia|]. cbn [read_elems]. rewrite <- !app_assoc, value_blanks by auto. cbn [app].
    rewrite IHv; [|apply N; now left|apply blanks_ends; [auto|reflexivity]]. rewrite skip_blanks by auto. rewrite (skip_id 44) by reflexivity.
    change (Nat.eqb 44 c_rbrack) with false. change (Nat.eqb 44 c_comma) with true. cbn match. rewrite IHl; [reflexivity| |cbn in F; lia]. intros x I. apply N. now right.
  - intros k v w1 kb w2 w3 b w4 W1 K W2 W3 V IH W4 d [|fuel] rest N F; [cbn in F; lia|]. cbn [read_members]. rewrite <- !app_assoc, skip_blanks by auto. cbn [app].
    rewrite (skip_id 34) by reflexivity. change (Nat.eqb 34 c_quote) with true. cbn match. rewrite <- app_assoc. cbn [app]. rewrite (chars_read k kb K). rewrite <- app_assoc, skip_blanks by auto. cbn [app].
    rewrite (skip_id 58) by reflexivity. change (Nat.eqb 58 c_colon) with true. cbn match. rewrite <- !app_assoc, value_blanks by auto.
    rewrite IH; [|apply (N k); now left|apply blanks_ends; [auto|reflexivity]]. rewrite skip_blanks by auto. reflexivity.
  - intros k v vs w1 kb w2 w3 b w4 bs W1 K W2 W3 V IHv W4 E IHl d [|fuel] rest N F; [cbn in F; lia|]. cbn [read_members]. rewrite <- !app_assoc, skip_blanks by auto. cbn [app].
    rewrite (skip_id 34) by reflexivity. change (Nat.eqb 34 c_quote) with true. cbn match. rewrite <- app_assoc. cbn [app]. rewrite (chars_read k kb K). rewrite <- app_assoc, skip_blanks by auto. cbn [app].
    rewrite (skip_id 58) by reflexivity. change (Nat.eqb 58 c_colon) with true. cbn match. rewrite <- !app_assoc, value_blanks by auto. cbn [app].
    rewrite IHv; [|apply (N k); now left|apply blanks_ends; [auto|reflexivity]]. rewrite skip_blanks by auto. rewrite (skip_id 44) by reflexivity.
    change (Nat.eqb 44 c_rbrace) with false. change (Nat.eqb 44 c_comma) with true. cbn match. rewrite IHl; [reflexivity| |cbn in F; lia]. intros k' x I. apply (N k'). now right.
Qed.

(* ---- only these are read ---- *)
Definition sound (rv : bytes -> option (json * bytes)) : Prop :=
  forall b j r, rv b = Some (j, r) -> exists w v, b = w ++ v ++ r /\ blanks w /\ spells j v.

Lemma elems_spelt rv : sound rv -> forall fuel b l r, read_elems rv fuel b = Some (l, r) -> exists v, b = v ++ 93 :: r /\ spells_elems l v.
Proof.
  intros RV. induction fuel as [|fuel IH]; intros b l r; cbn [read_elems]; [discriminate|].
  destruct (rv b) as [[v b1]|] eqn:E; [|discriminate]. destruct (RV _ _ _ E) as (w & x & -> & W & X).
  destruct (skip_split b1) as (w2 & W2 & E2). destruct (skip_ws b1) as [|c b2]; [discriminate|]. subst b1.
  destruct (Nat.eqb_spec c c_rbrack) as [->|].
  - intros H. injection H as <- <-. exists (w ++ x ++ w2). split; [now rewrite <- !app_assoc|]. now constructor.
  - destruct (Nat.eqb_spec c c_comma) as [->|]; [|discriminate]. destruct (read_elems rv fuel b2) as [[vs r']|] eqn:R; [|discriminate].
    intros H. injection H as <- <-. destruct (IH _ _ _ R) as (y & -> & Y). exists (w ++ x ++ w2 ++ 44 :: y). split; [|now constructor].
    rewrite <- !app_assoc. cbn [app]. reflexivity.
Qed.
Lemma members_spelt rv : sound rv -> forall fuel b l r, read_members rv fuel b = Some (l, r) -> exists v, b = v ++ 125 :: r /\ spells_members l v.
Proof.
  intros RV. induction fuel as [|fuel IH]; intros b l r; cbn [read_members]; [discriminate|].
  destruct (skip_split b) as (w1 & W1 & E1). destruct (skip_ws b) as [|q b0]; [discriminate|]. subst b.
  destruct (Nat.eqb_spec q c_quote) as [->|]; [|discriminate]. destruct (read_str b0) as [[k b1]|] eqn:K; [|discriminate].
  destruct (read_chars _ b0 (le_n _) _ _ K) as (kb & -> & KB).
  destruct (skip_split b1) as (w2 & W2 & E2). destruct (skip_ws b1) as [|c b2]; [discriminate|]. subst b1.
  destruct (Nat.eqb_spec c c_colon) as [->|]; [|discriminate]. destruct (rv b2) as [[v b3]|] eqn:E; [|discriminate].
  destruct (RV _ _ _ E) as (w3 & x & -> & W3 & X).
  destruct (skip_split b3) as (w4 & W4 & E4). destruct (skip_ws b3) as [|d b4]; [discriminate|]. subst b3.
  destruct (Nat.eqb_spec d c_rbrace) as [->|].
  - intros H. injection H as <- <-. exists (w1 ++ 34 :: kb ++ 34 :: w2 ++ 58 :: w3 ++ x ++ w4). split; [|now constructor].
    repeat (rewrite <- app_assoc; cbn [app]). reflexivity.
  - destruct (Nat.eqb_spec d c_comma) as [->|]; [|discriminate]. destruct (read_members rv fuel b4) as [[vs r']|] eqn:R; [|discriminate].
    intros H. injection H as <- <-. destruct (IH _ _ _ R) as (y & -> & Y). exists (w1 ++ 34 :: kb ++ 34 :: w2 ++ 58 :: w3 ++ x ++ w4 ++ 44 :: y). split; [|now constructor].
    repeat (rewrite <- app_assoc; cbn [app]). reflexivity.
Qed.

Opaque read_value.
Lemma value_spelt d : sound (read_value d).
Proof.
  induction d as [d IH] using (well_founded_induction Wf_nat.lt_wf). intros b j r. rewrite value_eq.
  destruct (skip_split b) as (w & W & E). destruct (skip_ws b) as [|c b1]; [discriminate|]. subst b.
  assert (GO : forall v, c :: b1 = v ++ r -> spells j v -> exists w0 v0, w ++ c :: b1 = w0 ++ v0 ++ r /\ blanks w0 /\ spells j v0).
  { intros v -> V. exists w, v. auto. }
  destruct (Nat.eqb_spec c 34) as [->|].
  { destruct (read_str b1) as [[s r']|] eqn:R; [|discriminate]. intros H. injection H as <- <-. destruct (read_chars _ b1 (le_n _) _ _ R) as (v & -> & V).
    apply (GO (34 :: v ++ [34])); [cbn [app]; now rewrite <- app_assoc|now constructor]. }
  destruct (Nat.eqb_spec c 91) as [->|].
  { destruct d as [|[|d]]; try discriminate. destruct (skip_split b1) as (w2 & W2 & E2). destruct (skip_ws b1) as [|x b2]; [discriminate|].
    destruct (Nat.eqb_spec x 93) as [->|].
    - intros H. injection H as <- <-. subst b1. apply (GO (91 :: w2 ++ [93])); [cbn [app]; now rewrite <- app_assoc|now constructor].
    - destruct (read_elems _ _ b1) as [[l r']|] eqn:R; [|discriminate]. intros H. injection H as <- <-.
      destruct (elems_spelt _ (IH (S d) ltac:(lia)) _ _ _ _ R) as (v & -> & V). apply (GO (91 :: v ++ [93])); [cbn [app]; now rewrite <- app_assoc|now constructor]. }
  destruct (Nat.eqb_spec c 123) as [->|].
  { destruct d as [|[|d]]; try discriminate. destruct (skip_split b1) as (w2 & W2 & E2). destruct (skip_ws b1) as [|x b2]; [discriminate|].
    destruct (Nat.eqb_spec x 125) as [->|].
    - intros H. injection H as <- <-. subst b1. apply (GO (123 :: w2 ++ [125])); [cbn [app]; now rewrite <- app_assoc|now constructor].
    - destruct (read_members _ _ b1) as [[l r']|] eqn:R; [|discriminate]. intros H. injection H as <- <-.
      destruct (members_spelt _ (IH (S d) ltac:(lia)) _ _ _ _ R) as (v & -> & V). apply (GO (123 :: v ++ [125])); [cbn [app]; now rewrite <- app_assoc|now constructor]. }
  destruct (is_digit c || Nat.eqb c 45) eqn:D.
  { apply Bool.orb_true_iff in D. rewrite digit_iff, Nat.eqb_eq in D. destruct (span_num b1) as [t r'] eqn:S0. destruct (is_number (c :: t)) eqn:IN; [|discriminate]. intros H. injection H as <- <-.
    apply span_split in S0. subst b1. apply (GO (c :: t)); [reflexivity|]. constructor. now apply number_iff. }
  destruct (strip s_null (c :: b1)) as [r'|] eqn:S1. { intros H. injection H as <- <-. apply (GO s_null); [now apply strip_split|constructor]. }
  destruct (strip s_true (c :: b1)) as [r'|] eqn:S2. { intros H. injection H as <- <-. apply (GO s_true); [now apply strip_split|constructor]. }
  destruct (strip s_false (c :: b1)) as [r'|] eqn:S3; [|discriminate]. intros H. injection H as <- <-. apply (GO s_false); [now apply strip_split|constructor].
Qed.

Lemma read_iff b j : read_json b = Some j <-> is_text_of j b /\ nesting j < 128.
Proof.
  split.
  - intros H. split; [|exact (read_json_nesting b j H)]. unfold read_json in H. destruct (read_value recursion_limit b) as [[j' r]|] eqn:E; [|discriminate].
    destruct (skip_ws r) eqn:R; [|discriminate]. injection H as <-. destruct (value_spelt _ _ _ _ E) as (w & v & -> & W & V).
    exists w, v, r. repeat split; auto. now apply skip_all.
  - intros [(w1 & v & w2 & -> & W1 & V & W2) N]. unfold read_json. rewrite value_blanks by auto.
    rewrite (proj1 spelt_is_read j v V recursion_limit w2 N).
    + rewrite <- (app_nil_r w2), skip_blanks by auto. reflexivity.
    + rewrite <- (app_nil_r w2). apply blanks_ends; [auto|exact I].
Qed.
