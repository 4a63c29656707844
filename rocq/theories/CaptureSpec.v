(* What C52 says. *)
From Verif Require Import Base CaptureModel.

(* l is made of l1 and l2, each in its own order *)
Inductive interleaving {A} : list A -> list A -> list A -> Prop :=
| il_nil : interleaving [] [] []
| il_left x l1 l2 l : interleaving l1 l2 l -> interleaving (x :: l1) l2 (x :: l)
| il_right x l1 l2 l : interleaving l1 l2 l -> interleaving l1 (x :: l2) (x :: l).

(* the bytes handed over by the drains, in order *)
Fixpoint drained (l : list capture) : list byte :=
  match l with
  | [] => []
  | CDrained b :: r => b ++ drained r
  | CPeeked _ :: r => drained r
  end.

Definition bytes_of (c : capture) : list byte := match c with CDrained b | CPeeked b => b end.

(* everything captured of a stream so far: handed over or still held *)
Definition captured (k : stream) : list byte := drained (k_log k) ++ k_side k.

(* the output the stream must carry: the header, then what the child wrote *)
Definition expected (k : stream) : list byte := k_header k ++ k_child k.

Definition prefix {A} (a b : list A) : Prop := exists c, b = a ++ c.

(* the copying task of the stream ended well, having seen the end of the output *)
Definition copied_all (k : stream) : Prop := k_pc k = CEnd true.

(* the task is in the middle of a write *)
Definition in_write (k : stream) : Prop := exists b c t h, k_pc k = CPush b c t h.
