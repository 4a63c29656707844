(* Model of a worker's reporting task: crates/abq_cli/src/workers/reporting.rs:36-92.  The
   results of all runners of the worker come in through one channel, each runner's in the
   order in which it sends them (crates/abq_workers/src/results_handler.rs:41-52,
   abq_utils/src/results_handler.rs).  A task that is handed a test without results panics
   (:60-63).  What the reporters do with the results is in ReportModel and OutputModel. *)
From Verif Require Import Base StatusModel ReportModel.

Definition is_empty (a : assoc) : bool := match as_results a with [] => true | _ => false end.
(* reporting.rs:36-40 with :49-92: the tracker at the end *)
Fixpoint work_forever (k : tracker) (rs : list assoc) : option tracker :=
  match rs with
  | [] => Some k
  | a :: rs' => if is_empty a then None else work_forever (handle_account k a) rs'
  end.
(* reporting.rs:42-51: the exit code of the suite; the tracker's maps are walked through in
   any order *)
Definition suite_exit (rs : list assoc) (code : option nat) : Prop :=
  match work_forever tracker_new rs with
  | None => code = None
  | Some k => exists o1 o2, Permutation (statuses k) o1 /\ Permutation (statuses k) o2 /\ code = Some (s_exit (snd (suite_result k o1 o2)))
  end.
