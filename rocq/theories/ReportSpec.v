(* The vocabulary of C41-C44, C59 and C60: the results of a run as a plain history. *)
From Verif Require Import Base StatusModel ReportModel.

(* a history of single results, each with its attempt's number and its test's work id *)
Record entry := { e_run : nat; e_work : nat; e_result : result }.
Definition flat (l : list assoc) : list entry :=
  flat_map (fun a => map (fun r => {| e_run := as_run a; e_work := as_work a; e_result := r |}) (as_results a)) l.
Definition account_entry (k : tracker) (e : entry) : tracker := account k (e_run e) (e_work e) (e_result e).

(* results of the test framework, as opposed to those abq makes up for a broken runner *)
Definition material (e : entry) : bool := negb (is_synthetic (r_status (e_result e))).
Definition of_test (t : nat) (e : entry) : bool := material e && Nat.eqb (r_id (e_result e)) t.
(* the attempts at a test: number of the attempt, and whether it failed *)
Definition attempts (t : nat) (es : list entry) : list (nat * bool) :=
  map (fun e => (e_run e, is_fail_like (r_status (e_result e)))) (filter (of_test t) es).
Definition failed_attempt (a : nat * bool) : Prop := snd a = true.
Definition passed_attempt (a : nat * bool) : Prop := snd a = false.
(* the test has a result *)
Definition has_result (t : nat) (es : list entry) : Prop := attempts t es <> [].
Definition always_failed (t : nat) (es : list entry) : Prop := has_result t es /\ Forall failed_attempt (attempts t es).

(* made-up results whose test has no result of the framework afterwards *)
Fixpoint unreplaced (es : list entry) : list entry :=
  match es with
  | [] => []
  | e :: t => if material e then unreplaced t
              else if existsb (fun e' => material e' && Nat.eqb (e_work e') (e_work e)) t then unreplaced t
              else e :: unreplaced t
  end.

(* what the code takes for a failed test: passes, then from a first attempt on only failures *)
Definition taken_for_failed (h : list (nat * bool)) : Prop :=
  exists ps fs, h = ps ++ (1, true) :: fs /\ Forall passed_attempt ps /\ Forall failed_attempt fs.

(* in every test's history the first result is of a first attempt, and no first attempt
   fails after a pass *)
Definition orderly (es : list entry) : Prop :=
  forall t, (forall n b h, attempts t es = (n, b) :: h -> b = true -> n = 1) /\
            (forall h1 h2 n, attempts t es = h1 ++ (n, true) :: h2 -> h1 <> [] -> Forall passed_attempt h1 -> n <> 1).

(* [l] lists the numbers with property [P], each once *)
Definition enumerates (P : nat -> Prop) (l : list nat) : Prop := NoDup l /\ forall t, In t l <-> P t.

(* how often a file is counted in counts; over the summaries of some runners *)
Definition count_of (f : nat) (c : counts) : nat := list_sum (map (fun e => if Nat.eqb (fst e) f then snd e else 0) c).
Definition total (sel : summary -> counts) (who : nat * nat -> bool) (f : nat) (us : list summary) : nat :=
  list_sum (map (fun u => if who (u_runner u) then count_of f (sel u) else 0) us).

(* the first result of a test says which file and runner it is counted for *)
Definition first_result (t : nat) (es : list entry) : option entry := match filter (of_test t) es with e :: _ => Some e | [] => None end.

(* what a tracker can have been through: results accounted for and summaries asked for, its
   maps walked through in any order *)
Inductive reaches : list entry -> tracker -> Prop :=
| reach_new : reaches [] tracker_new
| reach_account es k e : reaches es k -> reaches (es ++ [e]) (account_entry k e)
| reach_query es k o1 o2 : reaches es k -> Permutation (statuses k) o1 -> reaches es (fst (suite_result k o1 o2)).
Definition walks (orders : tracker -> list tstatus * list tstatus) : Prop :=
  forall k, Permutation (statuses k) (fst (orders k)) /\ Permutation (statuses k) (snd (orders k)).

(* what a reporter is shown: results, and the outputs around tests *)
Definition shown (c : rcall) : list result := match c with Push _ _ r _ => [r] | _ => [] end.
Definition shown_before (c : rcall) : list (list nat) := match c with Push _ (Some o) _ _ => [o] | _ => [] end.
Definition shown_after (c : rcall) : list (list nat) := match c with Push _ _ _ (Some o) => [o] | _ => [] end.
Definition of_option {A} (o : option A) : list A := match o with Some a => [a] | None => [] end.
