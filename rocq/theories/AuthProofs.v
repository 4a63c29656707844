From Verif Require Import Base AuthModel AuthSpec.

Lemma alnum_spec c : alnum c = true <-> is_alnum c.
Proof.
  unfold alnum, is_alnum. rewrite !orb_true_iff, !andb_true_iff, !Nat.leb_le. lia.
Qed.

Lemma forallb_alnum t : forallb alnum t = true <-> Forall is_alnum t.
Proof.
  rewrite forallb_forall, Forall_forall. split; intros H x Hx; apply alnum_spec; auto.
Qed.

Lemma strip_spec p s r : strip p s = Some r <-> s = p ++ r.
Proof.
  revert s. induction p as [|a p IH]; intros s; simpl.
  - split; [intros E; now injection E|now intros ->].
  - destruct s as [|b s]; simpl; [split; discriminate|].
    destruct (Nat.eqb_spec a b) as [->|N].
    + rewrite IH. split; [now intros ->|intros E; now injection E].
    + split; [discriminate|intros E; injection E; congruence].
Qed.

Lemma cut_sound p s : forall b o, cut p s = (b, o) -> match o with Some r => s = b ++ p ++ r | None => b = s end.
Proof.
  induction s as [|c t IH]; intros b o; cbn [cut].
  - destruct (strip p []) eqn:E; intros H; injection H as <- <-; [|reflexivity]. apply strip_spec in E. exact E.
  - destruct (strip p (c :: t)) eqn:E.
    + intros H; injection H as <- <-. apply strip_spec in E. exact E.
    + destruct (cut p t) as [b' a]. intros H; injection H as <- <-. specialize (IH _ _ eq_refl).
      destruct a; simpl; congruence.
Qed.

Lemma first_sep (x : nat) a : forall b r r', ~ In x a -> ~ In x b -> a ++ x :: r = b ++ x :: r' -> a = b.
Proof.
  induction a as [|c a IH]; intros [|d b] r r' Ha Hb E; simpl in *; injection E; intros; subst.
  - reflexivity.
  - now contradiction Hb; left.
  - now contradiction Ha; left.
  - f_equal. eapply IH; eauto.
Qed.

Section prefix.
Variables (body : list nat) (sep : nat).
Hypothesis Hb : ~ In sep body.
Let p := body ++ [sep].

Lemma cut_none t : ~ In sep t -> cut p t = (t, None).
Proof.
  induction t as [|c t IH]; intros H; cbn [cut].
  - destruct (strip p []) eqn:E; [|reflexivity]. apply strip_spec in E. unfold p in E. destruct body; discriminate.
  - destruct (strip p (c :: t)) eqn:E.
    + apply strip_spec in E. contradiction H. rewrite E. unfold p. rewrite !in_app_iff. simpl. auto.
    + rewrite IH; [reflexivity|]. intros K. apply H. now right.
Qed.

Lemma cut_some t r : ~ In sep t -> cut p (t ++ p ++ r) = (t, Some r).
Proof.
  induction t as [|c t IH]; intros H.
  - cbn [app]. assert (E : strip p (p ++ r) = Some r) by now apply strip_spec.
    destruct (p ++ r); cbn [cut]; now rewrite E.
  - cbn [app cut]. destruct (strip p (c :: t ++ p ++ r)) eqn:E.
    + exfalso. apply strip_spec in E. unfold p in E. rewrite <- !app_assoc in E. cbn [app] in E.
      assert (K : (c :: t) ++ body = body).
      { apply (first_sep sep _ _ r l); [|exact Hb|].
        - rewrite in_app_iff. intros [K|K]; auto.
        - rewrite <- app_assoc. exact E. }
      apply (f_equal (@length nat)) in K. rewrite app_length in K. simpl in K. lia.
    + rewrite IH; [reflexivity|]. intros K. apply H. now right.
Qed.

Lemma parse_iff s t : (forall c, is_alnum c -> c <> sep) ->
  parse_human_readable s p = Some t <->
  exists rest, s = p ++ t ++ rest /\ token t /\ (rest = [] \/ begins_with p rest).
Proof.
  intros Hsep. unfold parse_human_readable. split.
  - destruct (cut p s) as [b o] eqn:E. apply cut_sound in E. destruct b; [|discriminate].
    destruct o as [r|]; [|discriminate]. cbn [app] in E.
    destruct (cut p r) as [b o] eqn:E2. apply cut_sound in E2. cbn [fst].
    destruct (Nat.eqb_spec (length b) TOKEN_LEN) as [L|L]; [|discriminate].
    unfold from_buf. destruct (forallb alnum b) eqn:F; [|discriminate]. intros K; injection K as ->.
    apply forallb_alnum in F. assert (T : token t) by (split; assumption).
    destruct o as [r'|].
    + exists (p ++ r'). split; [congruence|]. split; [exact T|]. right. now exists r'.
    + exists []. rewrite app_nil_r. split; [congruence|]. auto.
  - intros (rest & -> & [L F] & R).
    assert (N : ~ In sep t). { intros K. rewrite Forall_forall in F. now apply (Hsep _ (F _ K)). }
    assert (E : cut p (p ++ t ++ rest) = ([], Some (t ++ rest))) by (apply (cut_some [] (t ++ rest)); auto).
    rewrite E. assert (E2 : fst (cut p (t ++ rest)) = t).
    { destruct R as [->|[r ->]]; [rewrite app_nil_r, cut_none by exact N; reflexivity|rewrite cut_some by exact N; reflexivity]. }
    rewrite E2, L. cbn [TOKEN_LEN Nat.eqb]. unfold from_buf. apply forallb_alnum in F. now rewrite F.
Qed.
End prefix.

Lemma user_parse s t : parse_user s = Some t <->
  exists rest, s = user_prefix ++ t ++ rest /\ token t /\ (rest = [] \/ begins_with user_prefix rest).
Proof.
  apply (parse_iff [97; 98; 113; 115] 95).
  - simpl. intuition congruence.
  - unfold is_alnum. intros c H ->. lia.
Qed.

Lemma admin_parse s t : parse_admin s = Some t <->
  exists rest, s = admin_prefix ++ t ++ rest /\ token t /\ (rest = [] \/ begins_with admin_prefix rest).
Proof.
  apply (parse_iff [97; 98; 113; 97; 100; 109; 105; 110] 95).
  - simpl. intuition congruence.
  - unfold is_alnum. intros c H ->. lia.
Qed.

Lemma bytes_eqb_spec a b : bytes_eqb a b = true <-> a = b.
Proof.
  revert b. induction a as [|x a IH]; intros [|y b]; simpl; try (split; congruence).
  rewrite andb_true_iff, Nat.eqb_eq, IH. split; [intros [-> ->]; auto|intros E; now injection E].
Qed.

Lemma hashed_concat args : forall c, hashed_bytes c args = c ++ concat args.
Proof.
  unfold hashed_bytes. induction args as [|a l IH]; intros c; simpl; [now rewrite app_nil_r|].
  now rewrite IH, app_assoc.
Qed.
