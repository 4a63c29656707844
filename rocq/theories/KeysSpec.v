(* Vocabulary for stored names. *)
From Verif Require Import Base.
From Coq Require Import String Ascii.

(* The character occurs in the string. *)
Fixpoint occurs (c : ascii) (s : string) : Prop :=
  match s with
  | EmptyString => False
  | String d s' => c = d \/ occurs c s'
  end.
