(* The vocabulary of C79. *)
From Verif Require Import Base StatusModel TermModel ReportModel ReportSpec ReportersModel.
From Verif Require PoolModel.
From Coq Require Import ZArith NArith Sorting.Sorted.
Open Scope nat_scope.

(* the results of a run in the order they come, and each with the number of its attempt *)
Definition results_of (l : list fassoc) : list full := flat_map fa_results l.
Definition attempts_of (l : list fassoc) : list (nat * full) := flat_map (fun a => map (fun r => (fa_run a, r)) (fa_results a)) l.

(* how long a test ran is given to the millisecond *)
Definition time_shown (t : runtime) (ns : Z) : Prop :=
  match t with
  | Milliseconds num den => (0 <= num -> num <= 9223372036854775807 * Zpos den -> ns * Zpos den <= num * 1000000 < (ns + 1000000) * Zpos den)%Z
  | Nanoseconds n => (0 <= n <= 9223372036854775807 -> ns = n)%Z
  end.

(* a test case of a JUnit file is about a result *)
Definition says (strip : text -> text) (r : full) (c : case) : Prop :=
  let message := strip (match f_output r with Some o => o | None => [] end) in
  c_name c = f_name r /\
  (f_status r = Success <-> c_verdict c = CSuccess) /\
  (f_status r = Pending \/ f_status r = Skipped \/ f_status r = Todo <-> c_verdict c = CSkipped) /\
  (f_status r = Failure -> exists kind, c_verdict c = CFailure kind message) /\
  (f_status r = Error \/ f_status r = TimedOut \/ f_status r = PrivateNativeRunnerError -> exists kind, c_verdict c = CError kind message) /\
  (c_verdict c = CSkipped -> c_time c = 0%Z) /\
  (c_verdict c <> CSkipped -> time_shown (f_runtime r) (c_time c)).
Definition says_all strip (rs : list full) (s : junit_suite) : Prop := Forall2 (says strip) rs (j_cases s).

Definition on_terminal (rep : reporter) : Prop := exists k told, rep = RStdout k told.
Definition path_of (rep : reporter) : option text := match rep with RStdout _ _ => None | RJUnit p _ => Some p | RJson p _ => Some p end.
(* a reporter is what an option asks for *)
Definition is_for (k : reporter_kind) (rep : reporter) : Prop :=
  match k with
  | RkDefault => exists told, rep = RStdout SDot told
  | RkLine => exists told, rep = RStdout SLine told
  | RkDot => exists told, rep = RStdout SDot told
  | RkProgress => exists told, rep = RStdout SProgress told
  | RkJUnitXml p => exists s, rep = RJUnit p s
  | RkRwxV1Json p => exists told, rep = RJson p told
  end.

(* nobody writes to the file of a reporter after it has *)
Definition undisturbed (fin : nat -> ending) (reps : list reporter) (i : nat) (p : text) : Prop :=
  forall j rep, i < j -> nth_error reps j = Some rep -> path_of rep = Some p -> fin j = FinNoDir \/ fin j = FinNoOpen.

(* a file holds the report of some results that a reporter is to write *)
Definition holds_report (strip : text -> text) (rep : reporter) (rs : list full) (info : option nat) (c : option content) : Prop :=
  match rep with
  | RStdout _ _ => False
  | RJUnit _ _ => exists s, c = Some (JUnitFile s) /\ says_all strip rs s
  | RJson _ _ => c = Some (JsonFile rs info)
  end.

Definition number {A} (f : A -> bool) (l : list A) : nat := length (filter f l).
Definition has_status (ss : list rstatus) (r : full) : bool :=
  existsb (fun s => match s, f_status r with
                    | Failure, Failure | Success, Success | Error, Error | Pending, Pending | Todo, Todo | Skipped, Skipped
                    | TimedOut, TimedOut | PrivateNativeRunnerError, PrivateNativeRunnerError => true
                    | _, _ => false end) ss.

(* an order of results for a report: the one of C41 *)
Definition fsorter (sort : list fassoc -> list fassoc) : Prop :=
  forall l, Permutation l (sort l) /\ StronglySorted (fun a b => ale (plain a) (plain b)) (sort l).
Definition fwalks (order : tracker -> list tstatus) : Prop := forall k, Permutation (statuses k) (order k).

(* every test has been run once and nothing was run again: one result for each test, of a
   first attempt, and no test has both a result of its framework and one made up for it *)
Definition run_once (l : list fassoc) : Prop :=
  (forall a, In a l -> fa_run a = 1) /\
  NoDup (map (fun r => r_id (f_res r)) (results_of l)) /\
  (forall a b r r', In a l -> In b l -> In r (fa_results a) -> In r' (fa_results b) -> fa_work a = fa_work b ->
     f_status r = PrivateNativeRunnerError -> f_status r' = PrivateNativeRunnerError).

(* what the terminal shows of a runner's tests, and of the listing of tests *)
Definition output_of (id : nat) (p : piece) : list PoolModel.text :=
  match p with
  | Live i o => if Nat.eqb i id then [o] else []
  | EndOutput i o => if Nat.eqb i id then [o] else []
  | _ => []
  end.
Definition listing (p : piece) : list PoolModel.text := match p with LiveManifest _ o => [o] | EndManifest o => [o] | _ => [] end.
Definition is_live (p : piece) : bool := match p with LiveManifest _ _ | Live _ _ => true | _ => false end.
(* what a runner's native processes wrote while tests were run *)
Definition written {info} (r : PoolModel.runner_exit info) : PoolModel.text :=
  match r with
  | PoolModel.ROk _ _ _ process _ => process
  | PoolModel.RErr _ output _ => PoolModel.combined output
  end.

(* paragraphs: the summaries among them, and blank lines exactly between summaries *)
Fixpoint summaries (ps : list paragraph) : list (nat * full) :=
  match ps with [] => [] | PSummary n r :: t => (n, r) :: summaries t | PBlank :: t => summaries t end.
Fixpoint separated (ps : list paragraph) : Prop :=
  match ps with
  | [] => True
  | [PSummary _ _] => True
  | PSummary _ _ :: PBlank :: ((PSummary _ _ :: _) as t) => separated t
  | _ => False
  end.
