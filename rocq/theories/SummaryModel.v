(* The summary that [abq test] and [abq report] print at their end.
   crates/abq_reporting/src/output.rs:109-316, 396-529 and
   crates/abq_cli/src/reporting.rs:132-150.
   A text is a list of code points.  The bytes of UTF-8 texts are ordered as their code points are. *)
From Verif Require Import Base.
From Verif Require ReportModel.
From Coq Require Import NArith String Ascii Decimal DecimalN.
Open Scope N_scope.

Definition text := list N.
Fixpoint t (s : string) : text := match s with EmptyString => [] | String c s' => N_of_ascii c :: t s' end.
Fixpoint text_eqb (a b : text) : bool :=
  match a, b with
  | [], [] => true
  | x :: a', y :: b' => N.eqb x y && text_eqb a' b'
  | _, _ => false
  end.
Fixpoint text_cmp (a b : text) : comparison :=
  match a, b with
  | [], [] => Eq
  | [], _ => Lt
  | _, [] => Gt
  | x :: a', y :: b' => match N.compare x y with Eq => text_cmp a' b' | c => c end
  end.

(* Display of u32 and u64 *)
Fixpoint digits (u : uint) : text :=
  match u with
  | Nil => []
  | D0 u => 48 :: digits u | D1 u => 49 :: digits u | D2 u => 50 :: digits u | D3 u => 51 :: digits u | D4 u => 52 :: digits u
  | D5 u => 53 :: digits u | D6 u => 54 :: digits u | D7 u => 55 :: digits u | D8 u => 56 :: digits u | D9 u => 57 :: digits u
  end.
Definition dec (n : N) : text := digits (N.to_uint n).
(* the format "{: >5}" *)
Definition dec5 (n : N) : text := repeat 32 (5 - List.length (dec n)) ++ dec n.

(* output.rs:109-114: a HashMap<String, u64> is the list of its entries in the order in which it is walked through.
   Sums beyond 2^64 are left out. *)
Definition counts := list (text * N).
Record runner_summary := { runner : N * N; failures_per_file : counts; retries_per_file : counts }.
(* output.rs:125-131 *)
Definition has_failures (s : runner_summary) : bool := match failures_per_file s with [] => false | _ => true end.
Definition has_retries (s : runner_summary) : bool := match retries_per_file s with [] => false | _ => true end.
(* output.rs:134-137, 139-142: entry(file).or_insert(0), += *)
Fixpoint entry_add (f : text) (n : N) (c : counts) : counts :=
  match c with
  | [] => [(f, 0 + n)]
  | (g, m) :: c' => if text_eqb f g then (g, m + n) :: c' else (g, m) :: entry_add f n c'
  end.
(* output.rs:133-143 (union) *)
Definition union (a b : runner_summary) : runner_summary :=
  {| runner := runner a;
     failures_per_file := fold_left (fun c e => entry_add (fst e) (snd e) c) (failures_per_file b) (failures_per_file a);
     retries_per_file := fold_left (fun c e => entry_add (fst e) (snd e) c) (retries_per_file b) (retries_per_file a) |}.

(* output.rs:146-165.  Times are in nanoseconds. *)
Inductive grouping := Worker | Runner.
Record short_summary := { wall_time : N; test_time : N; num_tests : N; num_failing : N; num_retried : N; runner_summaries : list runner_summary; grouped_by : grouping }.
(* output.rs:184-189 *)
Definition grouping_key (g : grouping) (r : N * N) : N := match g with Runner => snd r | Worker => fst r end.
(* output.rs:191-200 *)
Definition grouping_label (g : grouping) (r : N * N) : text :=
  match g with
  | Runner => t "runner " ++ dec (snd r)
  | Worker => t "worker " ++ dec (fst r)
  end.
(* output.rs:168-182: a BTreeMap is a list sorted by key *)
Fixpoint group_in (k : N) (s : runner_summary) (m : list (N * runner_summary)) : list (N * runner_summary) :=
  match m with
  | [] => [(k, s)]
  | (k', s') :: m' =>
      match N.compare k k' with
      | Eq => (k', union s' s) :: m'
      | Lt => (k, s) :: m
      | Gt => (k', s') :: group_in k s m'
      end
  end.
Definition grouped_runner_summaries (s : short_summary) : list runner_summary :=
  map snd (fold_left (fun m u => group_in (grouping_key (grouped_by s) (runner u)) u m) (runner_summaries s) []).
(* output.rs:262-266, 294-298: collected into a BTreeMap<String, u64> *)
Fixpoint file_insert (f : text) (n : N) (m : counts) : counts :=
  match m with
  | [] => [(f, n)]
  | (g, k) :: m' =>
      match text_cmp f g with
      | Eq => (g, n) :: m'
      | Lt => (f, n) :: m
      | Gt => (g, k) :: file_insert f n m'
      end
  end.
Definition ordered_files (c : counts) : counts := fold_left (fun m e => file_insert (fst e) (snd e) m) c [].

(* what is done with a WriteColor; writes are taken to succeed *)
Inductive fg := Green | Red | Yellow.
Record colour := { bold : bool; fg_of : option fg }.
Inductive wop := Put (x : text) | SetColour (c : colour) | ResetColour.
(* output.rs:415-445 *)
Definition bold_spec : colour := {| bold := true; fg_of := None |}.
Definition green_bold_spec : colour := {| bold := true; fg_of := Some Green |}.
Definition yellow_bold_spec : colour := {| bold := true; fg_of := Some Yellow |}.
Definition failing_spec (n : N) : colour := if 0 <? n then {| bold := true; fg_of := Some Red |} else {| bold := false; fg_of := None |}.
(* output.rs:463-476 *)
Definition with_color_spec (c : colour) (f : list wop) : list wop := SetColour c :: f ++ [ResetColour].
Definition line (x : text) : list wop := [Put (x ++ [10])].
Definition newline : list wop := line [].

Section Printing.
(* "{:.2}" of milliseconds as f64 divided by 1000: the hundredths of seconds that are shown *)
Context (hundredths : N -> N).
Definition two_digits (n : N) : text := [48 + (n / 10) mod 10; 48 + n mod 10].
(* output.rs:522-529; Duration::as_millis drops what is less than a millisecond *)
Definition partial_seconds (ns : N) : list wop :=
  let h := hundredths (ns / 1000000) in [Put (dec (h / 100) ++ t "." ++ two_digits (h mod 100) ++ t " seconds")].

(* output.rs:202-206 *)
Definition header : text :=
  repeat 45 80 ++ [10] ++ repeat 45 37 ++ t " ABQ " ++ repeat 45 38 ++ [10] ++ repeat 45 80 ++ [10].

(* output.rs:274-278, 306-310: the line of one file *)
Definition file_line (e : text * N) : list wop := [Put (t "    " ++ dec5 (snd e))] ++ [Put (t "   ")] ++ line (fst e).
(* output.rs:268-278, 288-310: one worker or runner *)
Definition block (g : grouping) (sel : runner_summary -> counts) (u : runner_summary) : list wop :=
  line (t "    " ++ grouping_label g (runner u) ++ t ":") ++ flat_map file_line (ordered_files (sel u)).
(* output.rs:257-260, 289-292: an empty line before all but the first *)
Definition blocks (g : grouping) (sel : runner_summary -> counts) (us : list runner_summary) : list wop :=
  match us with [] => [] | u :: us' => block g sel u ++ flat_map (fun u => newline ++ block g sel u) us' end.
(* output.rs:251-280, 282-313: a part of the summary *)
Definition part (title : text) (g : grouping) (sel : runner_summary -> counts) (us : list runner_summary) : list wop :=
  match us with [] => [] | _ => newline ++ line title ++ newline ++ blocks g sel us end.

(* output.rs:208-316 *)
Definition format_short_suite_summary (s : short_summary) : list wop :=
  let summaries := grouped_runner_summaries s in
  [Put header] ++ newline ++
  with_color_spec bold_spec (Put (t "Finished in ") :: partial_seconds (wall_time s)) ++
  [Put (t " (")] ++ partial_seconds (test_time s) ++ line (t " spent in test code)") ++
  with_color_spec green_bold_spec [Put (dec (num_tests s) ++ t " tests")] ++
  [Put (t ", ")] ++
  with_color_spec (failing_spec (num_failing s)) [Put (dec (num_failing s) ++ t " failures")] ++
  (if 0 <? num_retried s then [Put (t ", ")] ++ with_color_spec yellow_bold_spec [Put (dec (num_retried s) ++ t " retried")] else []) ++
  newline ++
  part (t "Retries:") (grouped_by s) retries_per_file (filter has_retries summaries) ++
  part (t "Failures:") (grouped_by s) failures_per_file (filter has_failures summaries).
End Printing.

(* crates/abq_cli/src/reporting.rs:132-150 (write_short_summary_lines): what is handed over of the suite's result (ReportModel).  Files are
   numbers there, [name] gives their names; [walk] is the order in which a HashMap is walked through. *)
Definition of_suite (name : nat -> text) (walk : counts -> counts) (wall test : N) (g : grouping) (s : ReportModel.suite) : short_summary :=
  let named c := walk (map (fun e => (name (fst e), N.of_nat (snd e))) c) in
  {| wall_time := wall; test_time := test;
     num_tests := N.of_nat (ReportModel.s_count s); num_failing := N.of_nat (ReportModel.s_failed s); num_retried := N.of_nat (ReportModel.s_retried s);
     runner_summaries := map (fun u => {| runner := (N.of_nat (fst (ReportModel.u_runner u)), N.of_nat (snd (ReportModel.u_runner u)));
                                          failures_per_file := named (ReportModel.u_failures u); retries_per_file := named (ReportModel.u_retries u) |}) (ReportModel.s_runners s);
     grouped_by := g |}.
