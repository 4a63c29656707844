(* The vocabulary of C92. *)
From Coq Require Import String Ascii NArith List Bool Arith.
From Verif Require Import Base RunModel RunSpec.
From Verif Require SetupModel.
Import ListNotations.
Open Scope string_scope.

(* A text of decimal digits, and the number it stands for. *)
Definition digit (c : ascii) (d : N) : Prop := (d < 10)%N /\ N_of_ascii c = (48 + d)%N.
Inductive decimal : string -> N -> Prop :=
| one_digit c d : digit c d -> decimal (String c "") d
| more_digits s n c d : decimal s n -> digit c d -> decimal (s ++ String c "") (10 * n + d).

(* The runners of a worker are known by the worker's number and theirs, counted from 1. *)
Definition runners_of (worker n : nat) : list tag := map (TRunner worker) (seq 1 n).

(* The worker was told to retry. *)
Definition some_runner_retries (k : assigned_kind) : bool := match k with RetryAndContinue => true | Fresh _ => false end.

Section Histories.
Context {T M : Type}.
(* the kinds of work that workers of a run were assigned, in order *)
Definition assigned_in (h : list (obs T M)) : list assigned_kind :=
  flat_map (fun o => match o with OAssigned _ (AssignedRun k _) => [k] | _ => [] end) h.
(* [x] is sent by the queue to [who] *)
Definition sent_to (h : list (obs T M)) (who : tag) (x : worker_test T) : Prop :=
  exists k r e ts eow p, In (OWork k r e ts eow p) h /\ en_tag e = who /\ In x ts.
(* the queue tells [who] which tests it was sent before *)
Definition told_again (h : list (obs T M)) (who : tag) (work : list (worker_test T)) : Prop :=
  exists r e, In (ORetry r e (RManifest work true)) h /\ en_tag e = who.
End Histories.
