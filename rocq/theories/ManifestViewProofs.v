From Verif Require Import Base ManifestViewModel.

Section P.
Context {T : Type}.

(* The tests whose owner is who, in manifest order. *)
Definition owned_by (who : tag) (items : list T) (ents : list tag) : list T :=
  map snd (filter (fun p => tag_eqb (fst p) who) (combine ents items)).

Lemma upd_app_mid {A} (l1 l2 : list A) x y : upd (length l1) y (l1 ++ x :: l2) = l1 ++ y :: l2.
Proof. induction l1 as [|a l IH]; simpl; auto. now rewrite IH. Qed.

Lemma view_loop_spec who : forall ents i fin items sel mid rest,
  items = sel ++ mid ++ rest -> length sel = fin -> length (sel ++ mid) = i ->
  length rest = length ents ->
  exists mid', view_loop who i fin items ents =
    Some ((sel ++ owned_by who rest ents) ++ mid', length (sel ++ owned_by who rest ents))
    /\ length ((sel ++ owned_by who rest ents) ++ mid') = length items.
Proof.
  induction ents as [|e ents IH]; intros i fin items sel mid rest Hit Hfin Hi Hlen.
  - destruct rest; [|discriminate]. simpl. exists mid.
    unfold owned_by; simpl. rewrite !app_nil_r in *. subst. rewrite ?app_nil_r. auto.
  - destruct rest as [|r rest]; [discriminate|]. simpl in Hlen.
    cbn [view_loop]. unfold owned_by at 1 2 3. cbn [combine filter fst].
    destruct (tag_eqb e who) eqn:He.
    + assert (Hsw : exists mid1, swap fin i items = Some ((sel ++ [r]) ++ mid1 ++ rest)
                      /\ length mid1 = length mid).
      { unfold swap. subst items fin.
        destruct mid as [|m mid].
        - rewrite app_nil_r in Hi. subst i. simpl.
          rewrite nth_error_app2, Nat.sub_diag by lia. simpl.
          rewrite !upd_app_mid. exists []. rewrite <- app_assoc. auto.
        - rewrite nth_error_app2, Nat.sub_diag by lia. simpl nth_error at 1. cbv iota.
          assert (Hr : nth_error (sel ++ (m :: mid) ++ r :: rest) i = Some r).
          { rewrite app_assoc. rewrite nth_error_app2 by lia. subst i. now rewrite Nat.sub_diag. }
          rewrite Hr. simpl app. rewrite upd_app_mid.
          exists (mid ++ [m]). split; [|rewrite app_length; simpl; lia].
          f_equal. replace (sel ++ r :: mid ++ r :: rest) with ((sel ++ r :: mid) ++ r :: rest)
            by (rewrite <- app_assoc; reflexivity).
          replace i with (length (sel ++ r :: mid)) by (rewrite app_length in *; simpl in *; lia).
          rewrite upd_app_mid. rewrite <- !app_assoc. simpl. reflexivity. }
      destruct Hsw as (mid1 & Hsw & Hm). rewrite Hsw.
      destruct (IH (S i) (S fin) ((sel ++ [r]) ++ mid1 ++ rest) (sel ++ [r]) mid1 rest) as (mid' & HL & Hle).
      * reflexivity.
      * rewrite app_length; simpl; lia.
      * rewrite !app_length in *; simpl in *; lia.
      * lia.
      * exists mid'. rewrite HL. fold (owned_by who rest ents). cbn [map snd].
        rewrite <- (app_assoc sel [r]). simpl. split; [reflexivity|].
        subst items. rewrite !app_length in *. simpl in *.
        fold (owned_by who rest ents). lia.
    + destruct (IH (S i) fin items sel (mid ++ [r]) rest) as (mid' & HL & Hle).
      * subst items. rewrite <- app_assoc. reflexivity.
      * exact Hfin.
      * rewrite !app_length in *; simpl in *; lia.
      * lia.
      * exists mid'. rewrite HL. auto.
Qed.

Lemma view_partition_filter (v : view) who :
  length (v_items v) = length (v_entities v) ->
  view_partition v who = Some (owned_by who (v_items v) (v_entities v)).
Proof.
  intros H. unfold view_partition.
  destruct (view_loop_spec who (v_entities v) 0 0 (v_items v) [] [] (v_items v)) as (mid' & HL & _); auto.
  rewrite HL. simpl app. now rewrite firstn_app, firstn_all, Nat.sub_diag, firstn_O, app_nil_r.
Qed.

(* With fewer items than owners the code would panic on some tag: the guard is needed. *)
Lemma view_partition_guard_needed (x : T) w :
  view_partition {| v_items := []; v_entities := [w] |} w = (None : option (list T)).
Proof. unfold view_partition; simpl. now rewrite tag_eqb_refl. Qed.

End P.
