From Verif Require Import Base JsonModel JsonProofs JsonlModel.

Lemma all_some_map {A B C} (f : B -> option C) (g : A -> B) (h : A -> C) l :
  (forall x, In x l -> f (g x) = Some (h x)) -> all_some f (map g l) = Some (map h l).
Proof.
  induction l as [|x l IH]; intros H; simpl; auto. rewrite H by now left. rewrite IH; auto. intros; apply H; now right.
Qed.

Lemma lines_from_app acc body rest : Forall (fun c => 32 <= c) body ->
  lines_from acc (body ++ 10 :: rest) = chomp (rev body ++ acc) :: lines_from [] rest.
Proof.
  revert acc. induction body as [|c body IH]; intros acc H; cbn [app lines_from].
  - reflexivity.
  - inversion H; subst. destruct (Nat.eqb_spec c 10); [lia|]. rewrite IH by auto. simpl. now rewrite <- app_assoc.
Qed.

Lemma chomp_printable body : Forall (fun c => 32 <= c) body -> chomp (rev body) = body.
Proof.
  intros H. unfold chomp. rewrite <- Forall_rev in H || apply Forall_rev in H.
  rewrite <- (rev_involutive body) at 2. destruct (rev body) as [|c l]; auto. inversion H; subst.
  do 14 (destruct c as [|c]; [first [lia|reflexivity]|]). reflexivity.
Qed.

Lemma lines_packed ls : Forall (Forall (fun c => 32 <= c)) ls -> lines (flat_map (fun x => x ++ [10]) ls) = ls.
Proof.
  unfold lines. induction ls as [|x ls IH]; intros H; simpl; auto. inversion H; subst.
  rewrite <- app_assoc. cbn [app]. rewrite lines_from_app, app_nil_r, chomp_printable by auto. now rewrite IH.
Qed.

Lemma nesting_length j : json_ok j -> nesting j <= length (write j).
Proof.
  induction j as [|b|t|s|l IH|l IH] using json_ind'; intros OK; simpl nesting; try lia.
  - apply json_ok_arr in OK. cbn [write length]. rewrite app_length. apply le_n_S.
    assert (X : fold_right (fun x m => Nat.max (nesting x) m) 0 l <= length (sep (map write l))); [|lia].
    clear - IH OK. induction l as [|x l IHl]; [simpl; lia|].
    inversion OK; inversion IH; subst. specialize (IHl ltac:(auto) ltac:(auto)). specialize (H5 H1). cbn [fold_right map].
    destruct l as [|y l]; [simpl; lia|]. cbn [map] in *. rewrite sep_cons, app_length. cbn [length]. lia.
  - apply json_ok_obj in OK. rewrite write_obj. cbn [length]. rewrite app_length. apply le_n_S.
    assert (X : fold_right (fun x m => Nat.max (nesting (snd x)) m) 0 l <= length (sep (map write_member l))); [|lia].
    clear - IH OK. induction l as [|x l IHl]; [simpl; lia|].
    inversion OK; inversion IH; subst. specialize (IHl ltac:(auto) ltac:(auto)). specialize (H5 H1). cbn [fold_right map].
    assert (Y : length (write (snd x)) <= length (write_member x)) by (destruct x; unfold write_member; rewrite app_length; simpl; lia).
    destruct l as [|y l]; [simpl; lia|]. cbn [map] in *. rewrite sep_cons, app_length. cbn [length]. lia.
Qed.

Lemma raw_value_write j : json_ok j -> raw_value (write j) = Some (write j).
Proof.
  intros OK. unfold raw_value. pose proof (nesting_length j OK) as N.
  assert (R : read_value (S (S (length (write j)))) (write j) = Some (j, [])).
  { rewrite <- (app_nil_r (write j)) at 2. apply read_write; auto; [lia|exact I]. }
  now rewrite R.
Qed.

Section Jsonl.
Context {L : Type} (enc : L -> json) (dec : json -> option L).

Lemma read_lines_packed ls : Forall (fun x => json_ok (enc x)) ls ->
  read_results_lines (flat_map (packed_line enc) ls) = Some (map (packed enc) ls).
Proof.
  intros H. unfold read_results_lines.
  replace (flat_map (packed_line enc) ls) with (flat_map (fun x => x ++ [10]) (map (packed enc) ls))
    by (clear; induction ls; simpl; auto; unfold packed_line; now rewrite IHls).
  rewrite lines_packed.
  - apply all_some_map. rewrite Forall_forall in H. intros x Hx. now apply raw_value_write, H.
  - apply Forall_map. eapply Forall_impl; [|exact H]. intros; now apply write_printable.
Qed.

Lemma decode_packed ls : Forall (fun x => json_ok (enc x) /\ nesting (enc x) < recursion_limit /\ dec (enc x) = Some x) ls ->
  decode dec (map (packed enc) ls) = Some ls.
Proof.
  intros H. unfold decode. rewrite <- (map_id ls) at 2. apply all_some_map. rewrite Forall_forall in H.
  intros x Hx. destruct (H x Hx) as (A & B & C). unfold packed. now rewrite read_json_write.
Qed.
End Jsonl.
