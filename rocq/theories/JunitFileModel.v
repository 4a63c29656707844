(* Model of the JUnit report as a file: crates/reporters/junit_xml/src/lib.rs:110-114 (write_xml), down to the
   characters of the file, for the test cases of ReportersModel (lib.rs:26-99).

   The file is written by the crates junit-report 0.8.2 and quick-xml 0.26.0, whose code is not in
   the repository.  What they write is taken from the files that the tests of lib.rs expect
   (:200-221, :262-275, :306-318, :349-361, :379-391): elements without content end with a slash; the values of
   attributes are escaped as quick_xml::escape::escape does it, which replaces the five characters for which XML has
   names and no others.  How a number of seconds and a time of day are displayed is left open.  The encoding of the
   characters as UTF-8 is left out. *)
From Coq Require Import String.
From Verif Require Import Base.
From Verif Require SummaryModel.
From Verif Require Import ReportersModel.
From Coq Require Import NArith ZArith.
Open Scope N_scope.

Definition text := list N.

(* a text of the program *)
Definition t (s : string) : text := SummaryModel.t s.

(* quick_xml::escape::escape *)
Definition escape_char (c : N) : text :=
  if c =? 60 then t "&lt;" else if c =? 62 then t "&gt;" else if c =? 39 then t "&apos;"
  else if c =? 38 then t "&amp;" else if c =? 34 then t "&quot;" else [c].
Definition escape (x : text) : text := flat_map escape_char x.

(* an attribute of an element *)
Definition attr (name : string) (value : text) : text := [32] ++ t name ++ [61; 34] ++ escape value ++ [34].

Section Display.
(* the display of a number of nanoseconds as seconds, and of when the collector was made (lib.rs:10-16, 20-22) *)
Context (seconds : Z -> text) (timestamp : text).

(* junit_report::TestCase, as lib.rs:207-218 shows it *)
Definition case_xml (c : case) : text :=
  t "<testcase" ++ attr "name" (c_name c) ++ attr "time" (seconds (c_time c)) ++
  match c_verdict c with
  | CSuccess => t "/>"
  | CSkipped => t "><skipped/></testcase>"
  | CFailure type message => t "><failure" ++ attr "type" type ++ attr "message" message ++ t "/></testcase>"
  | CError type message => t "><error" ++ attr "type" type ++ attr "message" message ++ t "/></testcase>"
  end.

(* a count, for an attribute *)
Definition count (n : nat) : text := SummaryModel.dec (N.of_nat n).

(* junit_report::TestSuite, as lib.rs:206 shows it; the suite is the first of its report *)
Definition suite_xml (s : junit_suite) : text :=
  t "<testsuite" ++ attr "id" (t "0") ++ attr "name" (j_name s) ++ attr "package" (t "testsuite/" ++ j_name s) ++
  attr "tests" (count (junit_tests s)) ++ attr "errors" (count (junit_errors s)) ++ attr "failures" (count (junit_failures s)) ++
  attr "hostname" (t "localhost") ++ attr "timestamp" timestamp ++ attr "time" (seconds (junit_time s)) ++
  match j_cases s with
  | [] => t "/>"
  | cases => t ">" ++ flat_map case_xml cases ++ t "</testsuite>"
  end.

(* lib.rs:110-114 *)
Definition write_xml (s : junit_suite) : text :=
  t "<?xml version=""1.0"" encoding=""utf-8""?>" ++ t "<testsuites>" ++ suite_xml s ++ t "</testsuites>".
End Display.

(* lib.rs:19-25, 101-108: a collector, told some results *)
Definition collect (strip : text -> text) (name : text) (rs : list full) : junit_suite :=
  fold_left (junit_push strip) rs {| j_name := name; j_cases := [] |}.
