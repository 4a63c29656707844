(* What is seen of a run whose processes are killed and started again. *)
From Verif Require Import Base JobQueueModel JobQueueSpec.
From Verif Require Import StatusModel FetchModel FetchSpec RunnerModel RunnerSpec SystemModel SystemSpec RetriedModel.

(* The states of a run with this manifest. *)
Definition zreaches (c : config nat) (z : fleet) : Prop := exists es, z = run (zstep c) (zinit c) es.

(* The worker tag of a process, and the reports it sent. *)
Definition tag_of (pr : proc) : tag := p_tag (q_params pr).
Definition sent_by (pr : proc) : list aresult := concat (r_sent (q_runner pr)).

(* The runner has returned, and its native runner did not crash.  (The process may have
   ended since.) *)
Definition completed (pr : proc) : Prop := finished (q_runner pr) /\ ~ crashed (q_runner pr).

(* The last process of each tag. *)
Fixpoint last_processes (l : list proc) : list proc :=
  match l with
  | [] => []
  | pr :: l' => if existsb (same_tag (tag_of pr)) l' then last_processes l' else pr :: last_processes l'
  end.

(* It is the first process of its tag, or it was told what to run again only when the other
   processes of its tag had ended and the queue was done with all of their requests. *)
Definition orderly (pr : proc) : Prop := q_retry pr = None \/ q_orderly pr = true.
