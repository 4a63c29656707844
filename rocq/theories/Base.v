(* Shared vocabulary of the model: identities of queue participants and
   list helpers.  Nothing here is specific to one component. *)
From Coq Require Export List Arith Lia Bool ZArith Permutation.
Export ListNotations.

(* ------------------------------------------------------------------ *)
(* Tags and entities: crates/abq_utils/src/net_protocol.rs:54-245.      *)

(* net_protocol.rs:145-152 (enum Tag) over WorkerRunner (net_protocol.rs:92-118).
   u32 worker and runner numbers are modelled as nat (never computed with). *)
Inductive tag : Type :=
| TRunner (worker runner : nat)
| TLocalClient
| TExternalClient.

(* derived PartialEq on Tag, net_protocol.rs:144 *)
Definition tag_eqb (a b : tag) : bool :=
  match a, b with
  | TRunner w r, TRunner w' r' => Nat.eqb w w' && Nat.eqb r r'
  | TLocalClient, TLocalClient => true
  | TExternalClient, TExternalClient => true
  | _, _ => false
  end.

Lemma tag_eqb_spec a b : reflect (a = b) (tag_eqb a b).
Proof.
  destruct a as [w r| |], b as [w' r'| |]; simpl; try (constructor; congruence).
  destruct (Nat.eqb_spec w w'), (Nat.eqb_spec r r'); simpl; constructor; congruence.
Qed.

Lemma tag_eqb_refl a : tag_eqb a a = true.
Proof. destruct (tag_eqb_spec a a); congruence. Qed.

Lemma tag_eqb_true a b : tag_eqb a b = true <-> a = b.
Proof. destruct (tag_eqb_spec a b); split; congruence. Qed.

Lemma tag_eqb_false a b : tag_eqb a b = false <-> a <> b.
Proof. destruct (tag_eqb_spec a b); split; congruence. Qed.

Lemma tag_eqb_sym a b : tag_eqb a b = tag_eqb b a.
Proof. destruct (tag_eqb_spec a b), (tag_eqb_spec b a); congruence. Qed.

Definition tag_dec (a b : tag) : {a = b} + {a <> b}.
Proof. destruct (tag_eqb_spec a b); [left|right]; assumption. Defined.

(* net_protocol.rs:176-182 (struct Entity).  The 16 random bytes of the id are
   an opaque number. *)
Record entity : Type := { en_id : nat; en_tag : tag }.

(* ------------------------------------------------------------------ *)
(* Lists as Rust vectors.                                               *)

(* v[i] = x *)
Fixpoint upd {A} (i : nat) (x : A) (l : list A) : list A :=
  match l, i with
  | [], _ => []
  | _ :: t, O => x :: t
  | h :: t, S i' => h :: upd i' x t
  end.

(* &v[s..e], for s <= e <= v.len() (anything else panics in Rust; the model
   guards the use of slices explicitly) *)
Definition slice {A} (l : list A) (s e : nat) : list A := firstn (e - s) (skipn s l).

Lemma upd_length {A} i (x : A) l : length (upd i x l) = length l.
Proof. revert i; induction l as [|h t IH]; intros [|i]; simpl; auto. Qed.

Lemma nth_error_upd_eq {A} i (x : A) l :
  i < length l -> nth_error (upd i x l) i = Some x.
Proof.
  revert i; induction l as [|h t IH]; intros [|i]; simpl; intros H; try lia; auto.
  apply IH; lia.
Qed.

Lemma nth_error_upd_neq {A} i j (x : A) l :
  i <> j -> nth_error (upd i x l) j = nth_error l j.
Proof.
  revert i j; induction l as [|h t IH]; intros [|i] [|j]; simpl; intros H; try lia; auto.
Qed.

Lemma nth_error_upd {A} i j (x : A) l :
  nth_error (upd i x l) j =
  if Nat.eqb i j then (if Nat.ltb i (length l) then Some x else None) else nth_error l j.
Proof.
  destruct (Nat.eqb_spec i j) as [->|Hne].
  - destruct (Nat.ltb_spec j (length l)).
    + now apply nth_error_upd_eq.
    + apply nth_error_None. now rewrite upd_length.
  - now apply nth_error_upd_neq.
Qed.

Lemma upd_out {A} i (x : A) l : length l <= i -> upd i x l = l.
Proof.
  revert i; induction l as [|h t IH]; intros [|i]; simpl; intros H; try lia; auto.
  f_equal; apply IH; lia.
Qed.

Lemma nth_error_ext {A} (l1 l2 : list A) :
  (forall i, nth_error l1 i = nth_error l2 i) -> l1 = l2.
Proof.
  revert l2; induction l1 as [|a t IH]; intros [|b t2] H; auto.
  - specialize (H 0); discriminate.
  - specialize (H 0); discriminate.
  - f_equal.
    + specialize (H 0); simpl in H; congruence.
    + apply IH; intro i; exact (H (S i)).
Qed.

Lemma map_upd {A B} (f : A -> B) i x l : map f (upd i x l) = upd i (f x) (map f l).
Proof. revert i; induction l as [|h t IH]; intros [|i]; simpl; f_equal; auto. Qed.

Lemma slice_length {A} (l : list A) s e : e <= length l -> length (slice l s e) = e - s.
Proof. intros H; unfold slice; rewrite firstn_length, skipn_length; lia. Qed.

Lemma slice_empty {A} (l : list A) s : slice l s s = [].
Proof. unfold slice; now rewrite Nat.sub_diag. Qed.

Lemma slice_full {A} (l : list A) : slice l 0 (length l) = l.
Proof. unfold slice; rewrite Nat.sub_0_r; simpl; apply firstn_all. Qed.

Lemma firstn_add {A} (l : list A) a b :
  firstn (a + b) l = firstn a l ++ firstn b (skipn a l).
Proof.
  revert l; induction a as [|a IH]; intros l; simpl; auto.
  destruct l as [|h t]; simpl; [now rewrite firstn_nil|]. now rewrite IH.
Qed.

Lemma skipn_add {A} (l : list A) a b : skipn (a + b) l = skipn b (skipn a l).
Proof.
  revert l; induction a as [|a IH]; intros l; simpl; auto.
  destruct l as [|h t]; simpl; [now rewrite skipn_nil|]. apply IH.
Qed.

Lemma slice_app {A} (l : list A) s m e :
  s <= m -> m <= e -> slice l s m ++ slice l m e = slice l s e.
Proof.
  intros H1 H2; unfold slice.
  replace (e - s) with ((m - s) + (e - m)) by lia.
  rewrite firstn_add. f_equal. f_equal.
  rewrite <- skipn_add. f_equal; lia.
Qed.

Lemma nth_error_skipn {A} (l : list A) s i : nth_error (skipn s l) i = nth_error l (s + i).
Proof.
  revert l; induction s as [|s IH]; intros l; simpl; auto.
  destruct l; simpl; auto. now destruct i.
Qed.

Lemma nth_error_firstn {A} (l : list A) n i :
  nth_error (firstn n l) i = if Nat.ltb i n then nth_error l i else None.
Proof.
  revert n i; induction l as [|h t IH]; intros [|n] [|i]; simpl; auto.
  - now destruct (Nat.ltb (S i) (S n)).
  - rewrite IH. reflexivity.
Qed.

Lemma nth_error_slice {A} (l : list A) s e i :
  nth_error (slice l s e) i = if Nat.ltb i (e - s) then nth_error l (s + i) else None.
Proof. unfold slice. now rewrite nth_error_firstn, nth_error_skipn. Qed.

Lemma in_slice {A} (l : list A) s e x :
  In x (slice l s e) <-> exists i, s <= i < e /\ nth_error l i = Some x.
Proof.
  split.
  - intros H. apply In_nth_error in H as [i Hi]. rewrite nth_error_slice in Hi.
    destruct (Nat.ltb_spec i (e - s)); try discriminate.
    exists (s + i); split; [lia|assumption].
  - intros [i [Hi Hx]]. apply nth_error_In with (n := i - s).
    rewrite nth_error_slice. destruct (Nat.ltb_spec (i - s) (e - s)); [|lia].
    now replace (s + (i - s)) with i by lia.
Qed.

Lemma slice_map {A B} (f : A -> B) (l : list A) s e : map f (slice l s e) = slice (map f l) s e.
Proof. unfold slice. now rewrite skipn_map, firstn_map. Qed.

Lemma nth_error_app {A} (l1 l2 : list A) i :
  nth_error (l1 ++ l2) i =
  if Nat.ltb i (length l1) then nth_error l1 i else nth_error l2 (i - length l1).
Proof.
  destruct (Nat.ltb_spec i (length l1)).
  - now apply nth_error_app1.
  - now apply nth_error_app2.
Qed.

Lemma nth_error_snoc {A} (l : list A) x i :
  nth_error (l ++ [x]) i =
  if Nat.ltb i (length l) then nth_error l i else if Nat.eqb i (length l) then Some x else None.
Proof.
  rewrite nth_error_app.
  destruct (Nat.ltb_spec i (length l)) as [Hl|Hl]; auto.
  destruct (Nat.eqb_spec i (length l)) as [->|Hn].
  - now rewrite Nat.sub_diag.
  - destruct (i - length l) as [|[|k]] eqn:E; simpl; auto; lia.
Qed.

(* Fold of a state machine over a history of events, oldest first. *)
Definition run {S E} (step : S -> E -> S) (s : S) (es : list E) : S := fold_left step es s.

Lemma run_app {S E} (step : S -> E -> S) s es1 es2 :
  run step s (es1 ++ es2) = run step (run step s es1) es2.
Proof. apply fold_left_app. Qed.

Lemma run_invariant {S E} (step : S -> E -> S) (P : S -> Prop) :
  (forall s e, P s -> P (step s e)) -> forall es s, P s -> P (run step s es).
Proof. intros Hs es; induction es as [|e es IH]; simpl; auto. Qed.

(* Byte strings (u8 and Vec<u8>). *)
Definition byte := nat.
Definition bytes := list byte.
