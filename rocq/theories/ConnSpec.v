(* Vocabulary for lost responses. *)
From Verif Require Import Base ConnModel.

Definition delivered (p : pull) : bool := match p_out p with Delivered => true | _ => false end.
(* The tests some worker received, in the order of the pulls. *)
Definition received (s : cstate) : list nat := flat_map p_tests (filter delivered (c_pulls s)).
(* The tests of responses that were lost. *)
Definition lost (s : cstate) : list nat := flat_map p_tests (filter (fun p => negb (delivered p)) (c_pulls s)).

(* A call in which no attempt fails after the queue has read its request. *)
Definition harmless (c : nat * list outcome) : Prop := Forall (fun o => o = Unreached \/ o = Delivered) (snd c).

