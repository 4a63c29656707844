(* Property theorems about flattening a manifest (C30). *)
From Verif Require Import Base FlattenModel.

Section P.
Context {TestId Meta Tags Name : Type}.
Notation node := (node TestId Meta Tags Name).
Notation test := (test TestId Meta Tags).
Notation spec := (spec TestId Meta).

(* ---- specification: the tests of a member, in the order of the source ---- *)
Fixpoint tests_of (n : node) : list test :=
  match n with
  | Test t => [t]
  | Group _ members _ _ => flat_map tests_of members
  end.
(* every test with the number of its top-level member *)
Fixpoint numbered (i : nat) (members : list node) : list (test * nat) :=
  match members with
  | [] => []
  | n :: rest => map (fun t => (t, i)) (tests_of n) ++ numbered (S i) rest
  end.

Fixpoint size (n : node) : nat :=
  match n with
  | Test _ => 1
  | Group _ members _ _ => S (fold_right (fun x a => size x + a) 0 members)
  end.
Definition sizes (l : list node) : nat := fold_right (fun x a => size x + a) 0 l.

(* what a collected test tells of its source *)
Definition source (x : spec * nat) : TestId * Meta * nat := (s_id (fst x), s_meta (fst x), snd x).
Definition source_of (x : test * nat) : TestId * Meta * nat := (t_id (fst x), t_meta (fst x), snd x).

Lemma sizes_app a b : sizes (a ++ b) = sizes a + sizes b.
Proof. unfold sizes. induction a; simpl; auto. lia. Qed.
Lemma sizes_rev a : sizes (rev a) = sizes a.
Proof. induction a as [|x a IH]; simpl; auto. rewrite sizes_app. simpl. unfold sizes in *. simpl. lia. Qed.
Lemma size_pos n : 0 < size n.
Proof. destruct n; simpl; lia. Qed.

Definition made (collected : list (spec * nat)) (ts : list (test * nat)) : list (spec * nat) :=
  fold_left (fun c '(t, g) => add_test_to_collected t c g) ts collected.

Lemma drain_ok fuel : forall queue collected g, sizes queue < fuel ->
  drain fuel queue collected g = Some (made collected (map (fun t => (t, g)) (flat_map tests_of (rev queue)))).
Proof.
  induction fuel as [|fuel IH]; intros queue collected g H; [lia|]. cbn [drain].
  assert (Hs : sizes (rev queue) < S fuel) by now rewrite sizes_rev.
  destruct (rev queue) as [|[t|name ms tags meta] below] eqn:E; auto.
  - cbn in Hs. rewrite IH by (rewrite sizes_rev; unfold sizes; lia). rewrite rev_involutive. reflexivity.
  - unfold sizes in Hs. cbn in Hs. rewrite IH.
    + rewrite rev_app_distr, !rev_involutive, flat_map_app. reflexivity.
    + rewrite sizes_app, !sizes_rev. unfold sizes. lia.
Qed.

Lemma made_app c a b : made c (a ++ b) = made (made c a) b.
Proof. apply fold_left_app. Qed.

Lemma flatten_ok fuel members : sizes members < fuel -> forall g collected,
  flatten_from fuel g members collected = Some (made collected (numbered g members)).
Proof.
  induction members as [|n rest IH]; intros H g collected; auto. unfold sizes in H. cbn in H.
  destruct n as [t|name ms tags meta]; cbn [flatten_from numbered tests_of].
  - rewrite IH by (unfold sizes; lia). now rewrite made_app.
  - cbn in H. rewrite drain_ok by (rewrite sizes_rev; unfold sizes; lia). rewrite rev_involutive, IH by (unfold sizes; lia).
    now rewrite made_app.
Qed.

Lemma made_source ts : forall c, map source (made c ts) = map source c ++ map source_of ts.
Proof.
  induction ts as [|[t g] ts IH]; intros c; simpl; [now rewrite app_nil_r|].
  rewrite IH. unfold add_test_to_collected. rewrite map_app, <- app_assoc. reflexivity.
Qed.
Lemma made_ids ts : forall c, map (fun x => s_work_id (fst x)) c = seq 0 (length c) ->
  map (fun x => s_work_id (fst x)) (made c ts) = seq 0 (length c + length ts).
Proof.
  induction ts as [|[t g] ts IH]; intros c H; simpl; [now rewrite Nat.add_0_r|].
  rewrite IH.
  - unfold add_test_to_collected. rewrite app_length. simpl. f_equal. lia.
  - unfold add_test_to_collected. rewrite map_app, app_length, H. simpl. now rewrite Nat.add_1_r, seq_S.
Qed.
Lemma made_focus ts : forall c, Forall (fun x : spec * nat => s_focus (fst x) = None) c ->
  Forall (fun x : spec * nat => s_focus (fst x) = None) (made c ts).
Proof.
  induction ts as [|[t g] ts IH]; intros c H; simpl; auto. apply IH. unfold add_test_to_collected.
  apply Forall_app. split; auto.
Qed.

(* ---- C30 ---- *)

(* Flattening ends, and lists every test of the manifest once, in the order of the
   source, with its id and metadata, without focus, and with the number of its
   top-level member as its group. *)
Theorem C30_flatten members fuel : sizes members < fuel ->
  exists l, flatten_manifest fuel members = Some l /\
    map source l = map source_of (numbered 0 members) /\
    NoDup (map (fun x => s_work_id (fst x)) l) /\
    Forall (fun x => s_focus (fst x) = None) l.
Proof.
  intros H. exists (made [] (numbered 0 members)). unfold flatten_manifest. rewrite flatten_ok by auto. split; auto.
  split; [now rewrite made_source|]. split; [|now apply made_focus].
  rewrite made_ids by auto. apply seq_NoDup.
Qed.

(* The group of a test stands for the one top-level member that contains it, so that two
   tests have the same group exactly if they come from the same top-level member; and
   the groups come in the order of the members. *)
Theorem C30_groups members fuel l i j x y : sizes members < fuel -> flatten_manifest fuel members = Some l ->
  nth_error l i = Some x -> nth_error l j = Some y ->
  exists a b, nth_error members (snd x) = Some a /\ nth_error members (snd y) = Some b /\
    (exists t, In t (tests_of a) /\ t_id t = s_id (fst x) /\ t_meta t = s_meta (fst x)) /\
    (exists t, In t (tests_of b) /\ t_id t = s_id (fst y) /\ t_meta t = s_meta (fst y)) /\
    (i <= j -> snd x <= snd y).
Proof.
  intros H F Hx Hy. destruct (C30_flatten members fuel H) as (l' & F' & SR & _ & _).
  assert (l' = l) as -> by congruence. clear F'.
  assert (N : forall ms k, forall t g, In (t, g) (numbered k ms) -> k <= g /\ exists a, nth_error ms (g - k) = Some a /\ In t (tests_of a)).
  { induction ms as [|n ms IH]; intros k t g I; simpl in I; [tauto|]. apply in_app_or in I as [I|I].
    - apply in_map_iff in I as (t' & [= -> ->] & I). rewrite Nat.sub_diag. split; auto. exists n. auto.
    - apply IH in I as (L & a & Ha & It). split; [lia|]. exists a. replace (g - k) with (S (g - S k)) by lia. auto. }
  assert (P : forall i x, nth_error l i = Some x -> exists t, nth_error (numbered 0 members) i = Some (t, snd x) /\ t_id t = s_id (fst x) /\ t_meta t = s_meta (fst x)).
  { intros k z Hz. assert (E : nth_error (map source l) k = Some (source z)) by now apply map_nth_error.
    rewrite SR, nth_error_map in E. destruct (nth_error (numbered 0 members) k) as [[t g]|] eqn:G; [|discriminate].
    cbn in E. injection E as E1 E2 E3. exists t. rewrite <- E3. auto. }
  destruct (P _ _ Hx) as (t1 & G1 & A1 & B1). destruct (P _ _ Hy) as (t2 & G2 & A2 & B2).
  destruct (N members 0 t1 (snd x)) as (_ & a & Ha & Ia); [eapply nth_error_In; eauto|].
  destruct (N members 0 t2 (snd y)) as (_ & b & Hb & Ib); [eapply nth_error_In; eauto|].
  rewrite Nat.sub_0_r in *. exists a, b. split; auto. split; auto. split; [eauto|]. split; [eauto|]. intros L.
  assert (M : forall ms k i j t1 g1 t2 g2, nth_error (numbered k ms) i = Some (t1, g1) -> nth_error (numbered k ms) j = Some (t2, g2) -> i <= j -> g1 <= g2).
  { clear - N. induction ms as [|n ms IH]; intros k i j t1 g1 t2 g2 E1 E2 L; simpl in *; [now destruct i|].
    rewrite nth_error_app in E1, E2.
    destruct (Nat.ltb_spec i (length (map (fun t => (t, k)) (tests_of n)))); destruct (Nat.ltb_spec j (length (map (fun t => (t, k)) (tests_of n)))); try lia.
    - apply nth_error_In, in_map_iff in E1 as (? & [= _ <-] & _). apply nth_error_In, in_map_iff in E2 as (? & [= _ <-] & _). lia.
    - apply nth_error_In, in_map_iff in E1 as (? & [= _ <-] & _). apply nth_error_In, N in E2 as (? & _). lia.
    - eapply IH; eauto. lia. }
  eapply M; eauto.
Qed.

(* A manifest without tests is reported as empty; any other starts the run with all
   its tests and with its metadata. *)
Theorem C30_manifest_arrival m fuel : sizes (m_members m) < fuel ->
  (flat_map tests_of (m_members m) = [] /\ handle_manifest fuel m = Some EmptyManifest) \/
  (flat_map tests_of (m_members m) <> [] /\ exists l, handle_manifest fuel m = Some (StartRun l (m_init_meta m)) /\
     map (fun x => s_id (fst x)) l = map t_id (flat_map tests_of (m_members m))).
Proof.
  intros H. destruct (C30_flatten (m_members m) fuel H) as (l & F & S & _ & _).
  assert (E : map (fun x => s_id (fst x)) l = map t_id (flat_map tests_of (m_members m))).
  { apply (f_equal (map (fun x => fst (fst x)))) in S. rewrite !map_map in S. cbn in S. rewrite S. clear.
    generalize 0. induction (m_members m) as [|n ms IH]; intros k; simpl; auto. rewrite map_app, map_map, map_app. f_equal. apply IH. }
  unfold handle_manifest. rewrite F. destruct l as [|x l].
  - left. split; auto. symmetry in E. now apply map_eq_nil in E.
  - right. split; [intros X; rewrite X in E; discriminate|]. eauto.
Qed.
End P.

Example C30_example :
  let t i := {| t_id := i; t_tags := tt; t_meta := i + 100 |} in
  let ms := [Test (t 1); Group 0 [Test (t 2); Group 0 [Group 0 [] tt 0; Test (t 3)] tt 0; Test (t 4)] tt 0; Group 0 [] tt 0; Test (t 5)] in
  sizes ms < 20 /\
  (exists l, flatten_manifest 20 ms = Some l /\ map source l = [(1, 101, 0); (2, 102, 1); (3, 103, 1); (4, 104, 1); (5, 105, 3)]).
Proof. cbv zeta. split; [vm_compute; lia|]. eexists. split; vm_compute; reflexivity. Qed.

Print Assumptions C30_flatten.
Print Assumptions C30_groups.
Print Assumptions C30_manifest_arrival.
