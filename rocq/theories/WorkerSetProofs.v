From Verif Require Import Base WorkerSetModel WorkerSetSpec.
From Coq Require Import Sorted.

Section Proofs.
Context {A : Type}.
Implicit Types (s : wset A) (e : entity) (t : tag).

Lemma contains_entry s e : contains_by_tag s e = true <-> entry s (en_tag e) <> None.
Proof.
  unfold contains_by_tag, entry. induction s as [|p s' IH]; simpl; [split; congruence|].
  destruct (tag_eqb (en_tag (fst p)) (en_tag e)); simpl; [split; congruence|exact IH].
Qed.

Lemma contains_entry_false s e : contains_by_tag s e = false <-> entry s (en_tag e) = None.
Proof.
  pose proof (contains_entry s e). destruct (contains_by_tag s e), (entry s (en_tag e)); intuition congruence.
Qed.

Lemma contains_tags s e : contains_by_tag s e = true <-> In (en_tag e) (tags s).
Proof.
  unfold contains_by_tag, tags. rewrite existsb_exists, in_map_iff. split.
  - intros (p & Hin & H). exists p. apply tag_eqb_true in H. auto.
  - intros (p & H & Hin). exists p. split; auto. apply tag_eqb_true; auto.
Qed.

Lemma entry_insert s e v t :
  entry (insert_by_tag e v s) t = if tag_eqb (en_tag e) t then Some (e, v) else entry s t.
Proof.
  unfold entry. induction s as [|p s' IH]; simpl.
  - destruct (tag_eqb (en_tag e) t); reflexivity.
  - destruct (tag_eqb_spec (en_tag (fst p)) (en_tag e)) as [Heq|Hne]; simpl.
    + rewrite Heq. destruct (tag_eqb (en_tag e) t); reflexivity.
    + rewrite IH. destruct (tag_eqb_spec (en_tag (fst p)) t) as [<-|H]; auto.
      destruct (tag_eqb_spec (en_tag e) (en_tag (fst p))); congruence.
Qed.

Lemma replaced_is_entry s e : replaced_by_tag e s = entry s (en_tag e).
Proof.
  unfold entry. induction s as [|p s' IH]; simpl; auto.
  destruct (tag_eqb (en_tag (fst p)) (en_tag e)); auto.
Qed.

Lemma entry_app s1 s2 t :
  entry (s1 ++ s2) t = match entry s1 t with Some p => Some p | None => entry s2 t end.
Proof.
  unfold entry. induction s1 as [|p s' IH]; simpl; auto.
  destruct (tag_eqb (en_tag (fst p)) t); auto.
Qed.

Lemma entry_insert_if_missing s e v t :
  entry (insert_by_tag_if_missing e v s) t =
  if tag_eqb (en_tag e) t then match entry s t with Some p => Some p | None => Some (e, v) end
  else entry s t.
Proof.
  unfold insert_by_tag_if_missing.
  destruct (tag_eqb_spec (en_tag e) t) as [<-|Hne].
  - destruct (contains_by_tag s e) eqn:Hc.
    + apply contains_entry in Hc. destruct (entry s (en_tag e)); congruence.
    + apply contains_entry_false in Hc. rewrite entry_app, Hc. unfold entry; simpl.
      now rewrite tag_eqb_refl.
  - destruct (contains_by_tag s e); auto. rewrite entry_app.
    destruct (entry s t); auto. unfold entry; simpl.
    destruct (tag_eqb_spec (en_tag e) t); congruence.
Qed.

Lemma tags_insert s e v :
  tags (insert_by_tag e v s) = if contains_by_tag s e then tags s else tags s ++ [en_tag e].
Proof.
  unfold contains_by_tag, tags. induction s as [|p s' IH]; simpl; auto.
  destruct (tag_eqb_spec (en_tag (fst p)) (en_tag e)) as [Heq|Hne]; simpl.
  - now rewrite Heq.
  - rewrite IH. destruct (existsb _ s'); auto.
Qed.

Lemma tags_insert_if_missing s e v :
  tags (insert_by_tag_if_missing e v s) = if contains_by_tag s e then tags s else tags s ++ [en_tag e].
Proof.
  unfold insert_by_tag_if_missing. destruct (contains_by_tag s e); auto.
  unfold tags; rewrite map_app; auto.
Qed.

Lemma NoDup_snoc {B} (l : list B) x : NoDup l -> ~ In x l -> NoDup (l ++ [x]).
Proof.
  intros H Hx. apply (Permutation_NoDup (l := x :: l)).
  - apply Permutation_cons_append.
  - constructor; auto.
Qed.

Lemma tags_op s o :
  tags (apply_wop s o) = tags s \/
  (~ In (op_tag o) (tags s) /\ tags (apply_wop s o) = tags s ++ [op_tag o]).
Proof.
  destruct o as [e v|e v]; simpl; [rewrite tags_insert|rewrite tags_insert_if_missing];
    destruct (contains_by_tag s e) eqn:Hc; auto; right; split; auto;
    intros Hin; apply contains_tags in Hin; congruence.
Qed.

Lemma nodup_op s o : NoDup (tags s) -> NoDup (tags (apply_wop s o)).
Proof.
  intros H. destruct (tags_op s o) as [->|[Hn ->]]; auto. now apply NoDup_snoc.
Qed.

Lemma nodup_ops ops : forall s, NoDup (tags s) -> NoDup (tags (fold_left apply_wop ops s)).
Proof. induction ops as [|o ops IH]; intros s H; simpl; auto. apply IH, nodup_op, H. Qed.

Lemma expected_gen t ops : forall s acc, entry s t = acc ->
  entry (fold_left apply_wop ops s) t =
  fold_left (fun acc o =>
    match o with
    | WInsert e v => if tag_eqb (en_tag e) t then Some (e, v) else acc
    | WInsertIfMissing e v =>
        if tag_eqb (en_tag e) t then match acc with Some p => Some p | None => Some (e, v) end
        else acc
    end) ops acc.
Proof.
  induction ops as [|o ops IH]; intros s acc H; simpl; auto.
  apply IH. destruct o as [e v|e v]; simpl.
  - rewrite entry_insert. destruct (tag_eqb (en_tag e) t); auto.
  - rewrite entry_insert_if_missing, H. reflexivity.
Qed.

Lemma entry_expected t (ops : list (wop A)) : entry (fold_left apply_wop ops []) t = expected t ops.
Proof. apply expected_gen; reflexivity. Qed.

Lemma from_iter_ops (l : list (entity * A)) :
  from_iter l = fold_left apply_wop (map (fun p => WInsert (fst p) (snd p)) l) [].
Proof.
  unfold from_iter. generalize (@nil (entity * A)) as s.
  induction l as [|p l IH]; intros s; simpl; auto.
Qed.

Lemma order_stable s ops : exists extra, tags (fold_left apply_wop ops s) = tags s ++ extra.
Proof.
  revert s; induction ops as [|o ops IH]; intros s; simpl.
  - exists []; now rewrite app_nil_r.
  - destruct (IH (apply_wop s o)) as [ex Hex]. rewrite Hex.
    destruct (tags_op s o) as [->|[_ ->]]; eauto. rewrite <- app_assoc. eauto.
Qed.

(* worker_count *)
Lemma insert_sorted_perm x l : Permutation (x :: l) (insert_sorted x l).
Proof.
  induction l as [|y t IH]; simpl; auto.
  destruct (Nat.leb x y); auto.
  rewrite perm_swap. now constructor.
Qed.

Lemma sort_perm l : Permutation l (sort_numbers l).
Proof.
  induction l as [|x t IH]; simpl; auto.
  rewrite <- insert_sorted_perm. now constructor.
Qed.

Lemma insert_sorted_sorted x l : Sorted le l -> Sorted le (insert_sorted x l).
Proof.
  induction l as [|y t IH]; simpl; intros H; auto.
  destruct (Nat.leb_spec x y).
  - constructor; auto.
  - inversion H; subst. constructor; auto.
    destruct t as [|z t]; simpl in *; [constructor; lia|].
    destruct (Nat.leb x z); constructor; try lia. inversion H4; auto.
Qed.

Lemma sort_sorted l : StronglySorted le (sort_numbers l).
Proof.
  apply Sorted_StronglySorted; [intros a b c; lia|].
  induction l as [|x t IH]; simpl; [constructor|]. now apply insert_sorted_sorted.
Qed.

Lemma dedup_in l : forall x, In x (dedup l) <-> In x l.
Proof.
  induction l as [|a t IH]; intros x; simpl; [tauto|].
  destruct t as [|b t']; [simpl; tauto|].
  destruct (Nat.eqb_spec a b) as [->|Hne].
  - rewrite IH. simpl. tauto.
  - cbn [In]. rewrite IH. simpl. tauto.
Qed.

Lemma dedup_nodup l : StronglySorted le l -> NoDup (dedup l).
Proof.
  induction l as [|a t IH]; intros H; simpl; [constructor|].
  inversion H as [|? ? Hs Hall]; subst.
  destruct t as [|b t']; [constructor; auto; constructor|].
  destruct (Nat.eqb_spec a b) as [->|Hne]; [auto|].
  constructor; [|auto].
  rewrite (dedup_in (b :: t')). intros Hin.
  inversion Hs as [|? ? Hs' Hall']; subst.
  rewrite Forall_forall in Hall, Hall'.
  assert (a <= b) by (apply Hall; left; auto).
  destruct Hin as [->|Hin]; [lia|]. specialize (Hall' _ Hin). lia.
Qed.

Lemma worker_count_distinct s (ws : list nat) :
  NoDup ws ->
  (forall w, In w ws <-> exists r, In (TRunner w r) (tags s)) ->
  worker_count s = length ws.
Proof.
  intros Hnd Hiff. unfold worker_count. apply Permutation_length.
  apply NoDup_Permutation; auto.
  - apply dedup_nodup, sort_sorted.
  - intros w. rewrite dedup_in, Hiff.
    assert (Hp : In w (sort_numbers (worker_numbers s)) <-> In w (worker_numbers s)).
    { split; apply Permutation_in; [symmetry|]; apply sort_perm. }
    rewrite Hp. unfold worker_numbers. rewrite in_flat_map. unfold tags.
    split.
    + intros (p & Hin & Hw). destruct (en_tag (fst p)) as [w' r| |] eqn:Et; simpl in Hw; try tauto.
      destruct Hw as [->|[]]. exists r. apply in_map_iff. eauto.
    + intros (r & Hin). apply in_map_iff in Hin as (p & Et & Hin). exists p. split; auto.
      rewrite Et. simpl. auto.
Qed.

End Proofs.
