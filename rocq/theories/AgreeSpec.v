(* The vocabulary of C84: what abq report says of a run and what the run's workers said. *)
From Verif Require Import Base StatusModel FetchModel SystemModel SystemSpec ReportModel OutcomeModel OutcomeSpec.

(* The lines that abq report gets hold what the runners of the run reported, each report
   once, in any lines and any order. *)
Definition tells (y : system) (ls : list rline) : Prop := Permutation (map core (flat_map line_results ls)) (reported y).

(* A later attempt at a test does not have an earlier time. *)
Definition clock_kept (l : list assoc) : Prop :=
  forall a b r r', In a l -> In b l -> as_work a = as_work b -> as_run a < as_run b ->
    hd_error (as_results a) = Some r -> hd_error (as_results b) = Some r' -> r_time r <= r_time r'.

(* No report is without results. *)
Definition no_empty (l : list assoc) : Prop := forall a, In a l -> as_results a <> [].

(* The run's workers are numbered; worker p has the runners that [owner] says, and is handed
   their reports. *)
Definition handed_to_workers (y : system) (n : nat) (owner : nat -> nat) (l : nat -> list assoc) : Prop :=
  (forall i, i < length (y_slots y) -> owner i < n) /\
  forall p, p < n -> received y (fun i => Nat.eqb (owner i) p) (l p).

(* [s] is what a process that was handed the results [l] in this order sums up. *)
Definition sums_up (l : list assoc) (s : suite) : Prop :=
  exists o1 o2, let k := fold_left handle_account l tracker_new in
    Permutation (statuses k) o1 /\ Permutation (statuses k) o2 /\ s = snd (suite_result k o1 o2).

(* An internal error outweighs a failure, a failure a success. *)
Definition worst (codes : list nat) : nat :=
  if existsb (Nat.eqb 101) codes then 101 else if existsb (Nat.eqb 1) codes then 1 else 0.

Definition total_of (n : nat) (f : nat -> nat) : nat := list_sum (map f (seq 0 n)).

(* What a reporter is told of a test case: the number of the attempt, the case, its status. *)
Definition told_case (k : rcall) : list (nat * nat * rstatus) := match k with Push m _ r _ => [(m, r_id r, r_status r)] | _ => [] end.
