(* What C50, C51, C55 and C61 say, without the model's functions. *)
From Verif Require Import Base UtilModel.
From Coq Require Import NArith.

(* ---- a finite map is a function; its answers ---- *)
Section finite_map.
Context {K V : Type}.
Definition fmap := K -> option V.

(* m' is m except that k is bound to o *)
Definition bound_to (m : fmap) (k : K) (o : option V) (m' : fmap) : Prop :=
  m' k = o /\ forall k', k' <> k -> m' k' = m k'.

(* l lists every binding of m exactly once *)
Definition lists (m : fmap) (l : list (K * V)) : Prop :=
  NoDup (map fst l) /\ forall k v, In (k, v) l <-> m k = Some v.

(* the right answer of an operation on m, and the map after it *)
Definition answers (m : fmap) (o : @vm_op K V) (a : vm_ans) (m' : fmap) : Prop :=
  match o with
  | OpInsert k v => a = AnsValue (m k) /\ bound_to m k (Some v) m'
  | OpRemove k => a = AnsValue (m k) /\ bound_to m k None m'
  | OpGet k => a = AnsValue (m k) /\ forall k', m' k' = m k'
  | OpContains k => (exists b, a = AnsBool b /\ (b = true <-> m k <> None)) /\ forall k', m' k' = m k'
  | OpLen => (exists l, lists m l /\ a = AnsNum (length l)) /\ forall k', m' k' = m k'
  | OpIsEmpty => (exists b, a = AnsBool b /\ (b = true <-> forall k, m k = None)) /\ forall k', m' k' = m k'
  | OpIter => (exists l, lists m l /\ a = AnsList l) /\ forall k', m' k' = m k'
  end.

(* a sequence of operations *)
Inductive session : fmap -> list (@vm_op K V) -> list vm_ans -> fmap -> Prop :=
| session_nil m : session m [] [] m
| session_cons m o a m1 os r m2 : answers m o a m1 -> session m1 os r m2 -> session m (o :: os) (a :: r) m2.
End finite_map.

(* ---- retries ---- *)

(* the first success among attempts 1..n, if any, and its number *)
Definition first_success {R E} (op : nat -> R + E) (n i : nat) : Prop :=
  1 <= i <= n /\ (exists v, op i = inl v) /\ forall j, 1 <= j < i -> exists e, op j = inr e.

(* replies worth another attempt: the server failed or asks to slow down *)
Definition retryable {B E} (o : reply B + E) : Prop :=
  exists r, o = inl r /\ (500 <= rp_status r < 600 \/ rp_status r = 429).
