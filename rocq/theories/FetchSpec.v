(* Vocabulary for what a runner is given to run. *)
From Verif Require Import Base StatusModel FetchModel.

Definition id_of (t : wtest) : nat := sp_id (wt_spec t).
Definition key (t : wtest) : nat * nat := (id_of t, wt_run t).
Definition rkey (r : aresult) : nat * nat := (ar_work r, ar_run r).

(* All tests handed to the runner so far, in order. *)
Definition handed (w : world) : list wtest := flat_map b_work (w_answers w).

(* What the sources have to give: each up to its end of work, in order. *)
Fixpoint served (s : list reply) : list wtest * bool :=
  match s with
  | Bundle b :: s' => if b_eow b then (b_work b, true) else let '(ts, e) := served s' in (b_work b ++ ts, e)
  | _ => ([], false)
  end.
Fixpoint source_tests (ss : list (list reply)) : list wtest :=
  match ss with
  | [] => []
  | s :: ss' => let '(ts, e) := served s in ts ++ (if e then source_tests ss' else [])
  end.

(* Sources give tests for the first attempt, without focus, and no test twice. *)
Definition proper (ss : list (list reply)) : Prop :=
  ss <> [] /\ NoDup (map id_of (source_tests ss)) /\
  Forall (fun t => wt_run t = 1 /\ sp_focus (wt_spec t) = None) (source_tests ss).

(* The runner reports the results of the tests it was given, one report for each, in
   the order in which it was given them. *)
Definition reports_in_order (w : world) (e : event) : Prop :=
  match e with
  | Account rs => exists later, map key (handed w) = map rkey (w_results w ++ rs) ++ later
  | Fetch => True
  end.
Fixpoint in_order (w : world) (es : list event) : Prop :=
  match es with
  | [] => True
  | e :: es' => reports_in_order w e /\ in_order (fstep w e) es'
  end.

(* A report with a failing result of test [id] in attempt [k] has come in. *)
Definition failing (r : aresult) : bool := existsb (fun x => is_fail_like (snd x)) (ar_results r).
Definition fails (rs : list aresult) (id k : nat) : bool :=
  existsb (fun r => Nat.eqb (ar_work r) id && Nat.eqb (ar_run r) k && failing r) rs.
(* ... in each of the first [k] attempts. *)
Definition fails_through (rs : list aresult) (id k : nat) : bool := forallb (fails rs id) (seq 1 k).

(* The attempt of the last test handed out. *)
Definition attempt (w : world) : nat := match rev (handed w) with t :: _ => wt_run t | [] => 1 end.

(* The cases of a test that a test is restricted to. *)
Definition focus_of (t : wtest) : list nat := match sp_focus (wt_spec t) with Some l => l | None => [] end.
(* The failing cases in a report, in order. *)
Definition failing_cases (r : aresult) : list nat := map fst (filter (fun x => is_fail_like (snd x)) (ar_results r)).

(* The tests handed out for a first attempt. *)
Definition first_attempts (w : world) : list wtest := filter (fun t => Nat.eqb (wt_run t) 1) (handed w).

(* Every source gets to its end of work. *)
Definition complete (ss : list (list reply)) : Prop := Forall (fun s => snd (served s) = true) ss.
