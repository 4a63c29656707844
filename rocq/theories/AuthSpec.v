(* What C47-C49 say, without the model's functions. *)
From Verif Require Import Base.

(* a letter or a digit *)
Definition is_alnum (c : nat) : Prop := 48 <= c <= 57 \/ 65 <= c <= 90 \/ 97 <= c <= 122.

(* a token: thirty letters or digits *)
Definition token (t : list nat) : Prop := length t = 30 /\ Forall is_alnum t.

(* a text that begins with p *)
Definition begins_with (p s : list nat) : Prop := exists r, s = p ++ r.

(* a test command: the program and its arguments *)
Definition command : Type := list nat * list (list nat).

(* a function without collisions *)
Definition collision_free (H : list nat -> nat) : Prop := forall a b, H a = H b -> a = b.
