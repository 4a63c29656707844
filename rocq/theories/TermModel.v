(* What the terminal shows: reporter options, the dot, line and progress reporters, and the
   summary of a failing test.
   crates/abq_cli/src/reporting.rs, crates/reporters/{dot,line,progress}/src/lib.rs,
   crates/abq_reporting/src/output.rs.  A text is a list of code points (of bytes, for captured
   output); colours are left out; writes are taken to succeed. *)
From Verif Require Import Base StatusModel.
From Coq Require Import NArith.
Open Scope N_scope.

Definition text := list N.

Fixpoint text_eqb (a b : text) : bool :=
  match a, b with
  | [], [] => true
  | x :: a', y :: b' => N.eqb x y && text_eqb a' b'
  | _, _ => false
  end.

(* ------------------------------------------------------------------ *)
(* Reporter options                                                     *)

Definition t_default : text := [100; 101; 102; 97; 117; 108; 116].
Definition t_line : text := [108; 105; 110; 101].
Definition t_dot : text := [100; 111; 116].
Definition t_progress : text := [112; 114; 111; 103; 114; 101; 115; 115].
Definition t_junit : text := [106; 117; 110; 105; 116; 45; 120; 109; 108].
Definition t_rwx : text := [114; 119; 120; 45; 118; 49; 45; 106; 115; 111; 110].
(* reporting.rs:19-20: "abq-test-results.xml", "abq-test-results.json" *)
Definition DEFAULT_XML_PATH : text :=
  [97; 98; 113; 45; 116; 101; 115; 116; 45; 114; 101; 115; 117; 108; 116; 115; 46; 120; 109; 108].
Definition DEFAULT_JSON_PATH : text :=
  [97; 98; 113; 45; 116; 101; 115; 116; 45; 114; 101; 115; 117; 108; 116; 115; 46; 106; 115; 111; 110].
Definition c_eq : N := 61.

(* reporting.rs:22-37 (ReporterKind); a path is its text (paths given on a command line that
   are not Unicode are left out) *)
Inductive reporter_kind := RkDefault | RkLine | RkDot | RkProgress | RkJUnitXml (path : text) | RkRwxV1Json (path : text).

(* reporting.rs:51-62 (Display) *)
Definition show_kind (k : reporter_kind) : text :=
  match k with
  | RkDefault => t_default
  | RkLine => t_line
  | RkDot => t_dot
  | RkProgress => t_progress
  | RkJUnitXml p => t_junit ++ [c_eq] ++ p
  | RkRwxV1Json p => t_rwx ++ [c_eq] ++ p
  end.

(* char::is_whitespace (Unicode White_Space), used by str::trim, reporting.rs:75-76 *)
Definition white_space (c : N) : bool :=
  (9 <=? c) && (c <=? 13) || (c =? 32) || (c =? 133) || (c =? 160) || (c =? 5760) ||
  (8192 <=? c) && (c <=? 8202) || (c =? 8232) || (c =? 8233) || (c =? 8239) || (c =? 8287) || (c =? 12288).

(* s.trim().is_empty() *)
Definition blank (s : text) : bool := forallb white_space s.

(* str::split('='), reporting.rs:74 *)
Fixpoint split_eq (s : text) : list text :=
  match s with
  | [] => [[]]
  | c :: t =>
      if c =? c_eq then [] :: split_eq t
      else match split_eq t with
           | [] => [[c]]
           | p :: ps => (c :: p) :: ps
           end
  end.

(* Option::filter of the next part, reporting.rs:75-76 *)
Definition not_blank (o : option text) : option text :=
  match o with Some s => if blank s then None else Some s | None => None end.

(* reporting.rs:64-95 (FromStr); None = Err *)
Definition parse_kind (s : text) : option reporter_kind :=
  if text_eqb s t_default then Some RkDefault
  else if text_eqb s t_line then Some RkLine
  else if text_eqb s t_dot then Some RkDot
  else if text_eqb s t_progress then Some RkProgress
  else
    let parts := split_eq s in
    let reporter := not_blank (nth_error parts 0) in
    let path := not_blank (nth_error parts 1) in
    match reporter with
    | Some r =>
        if text_eqb r t_junit then Some (RkJUnitXml (match path with Some p => p | None => DEFAULT_XML_PATH end))
        else if text_eqb r t_rwx then Some (RkRwxV1Json (match path with Some p => p | None => DEFAULT_JSON_PATH end))
        else None
    | None => None
    end.

(* ------------------------------------------------------------------ *)
(* The reporters                                                        *)

(* what the reporters use of a TestResult *)
Record tresult := { tr_status : rstatus; tr_name : text; tr_output : option text }.

Definition nl : N := 10.
(* "<no output>", dot/src/lib.rs:80 *)
Definition no_output : text := [60; 110; 111; 32; 111; 117; 116; 112; 117; 116; 62].

(* abq_reporting/src/output.rs:28-37 (format_result_dot): F . E P S *)
Definition dot_of (s : rstatus) : N :=
  match s with
  | Failure | TimedOut => 70
  | Success => 46
  | Error | PrivateNativeRunnerError => 69
  | Pending => 80
  | Skipped | Todo => 83
  end.

(* what the dot reporter writes, write by write *)
Inductive chunk := Mark (c : N) | Break | Text (s : text).
Definition chunk_text (c : chunk) : text := match c with Mark c => [c] | Break => [nl] | Text s => s end.

(* dot/src/lib.rs:10 *)
Definition DOT_REPORTER_LINE_LIMIT : N := 80.

(* dot/src/lib.rs:14-20; the summaries of failing tests are collected and never written *)
Record dot_reporter := { dr_out : list chunk; dr_num_results : N; dr_delayed : list tresult }.
Definition dot_new : dot_reporter := {| dr_out := []; dr_num_results := 0; dr_delayed := [] |}.

(* dot/src/lib.rs:48-96 (push_result); the captured outputs only go to the delayed summaries
   and are left out *)
Definition dot_push (d : dot_reporter) (r : tresult) : dot_reporter :=
  let n := dr_num_results d + 1 in
  let out := dr_out d ++ [Mark (dot_of (tr_status r))] ++
             (if n mod DOT_REPORTER_LINE_LIMIT =? 0 then [Break] else []) in
  match tr_status r with
  | PrivateNativeRunnerError =>
      {| dr_out := out ++ [Text (match tr_output r with Some o => o | None => no_output end ++ [nl])];
         dr_num_results := n; dr_delayed := dr_delayed d |}
  | s => {| dr_out := out; dr_num_results := n;
            dr_delayed := dr_delayed d ++ (if is_fail_like s then [r] else []) |}
  end.

(* dot/src/lib.rs:100-104 (after_all_results); finish (106-112) only flushes *)
Definition dot_after_all (d : dot_reporter) : list chunk :=
  dr_out d ++ (if dr_num_results d mod DOT_REPORTER_LINE_LIMIT =? 0 then [] else [Break]).

Definition dot_report (rs : list tresult) : list chunk := dot_after_all (fold_left dot_push rs dot_new).

(* progress/src/lib.rs: what is written, item by item, and what the progress bar shows *)
Inductive item :=
| INewline
| IFailing (r : tresult)                       (* a line for a failing result *)
| IProgress (tests passed failing : N)         (* a report of the progress, without a bar *)
| IBar (tests passed failing : N)              (* the message of the progress bar *)
| IUnderflow.                                  (* num_tests - num_failing underflows: a panic *)

(* output.rs:64-83 and 85-107: num_tests - num_failing *)
Definition progress_item (mk : N -> N -> N -> item) (tests failing : N) : item :=
  if tests <? failing then IUnderflow else mk tests (tests - failing) failing.

(* progress/src/lib.rs:14-24 *)
Record progress_reporter := {
  pr_out : list item; pr_bar : bool; pr_ticks : N; pr_results : N; pr_failing : N; pr_wrote_first : bool }.

(* progress/src/lib.rs:27-47 (new) *)
Definition progress_new (bar : bool) : progress_reporter :=
  {| pr_out := []; pr_bar := bar; pr_ticks := 0; pr_results := 0; pr_failing := 0; pr_wrote_first := false |}.

(* progress/src/lib.rs:49-96 (tick_progress, tick_interactive, tick_non_interactive) *)
Definition tick_progress (timed : bool) (p : progress_reporter) : progress_reporter :=
  let ticks := pr_ticks p + (if timed then 1 else 0) in
  if pr_bar p then
    {| pr_out := pr_out p ++ [progress_item IBar (pr_results p) (pr_failing p)]; pr_bar := true; pr_ticks := ticks;
       pr_results := pr_results p; pr_failing := pr_failing p; pr_wrote_first := pr_wrote_first p |}
  else if timed && ((ticks - 1) mod 10 =? 0) then
    {| pr_out := pr_out p ++ (if pr_wrote_first p then [INewline] else []) ++
                 [progress_item IProgress (pr_results p) (pr_failing p)];
       pr_bar := false; pr_ticks := ticks;
       pr_results := pr_results p; pr_failing := pr_failing p; pr_wrote_first := true |}
  else
    {| pr_out := pr_out p; pr_bar := false; pr_ticks := ticks;
       pr_results := pr_results p; pr_failing := pr_failing p; pr_wrote_first := pr_wrote_first p |}.

(* progress/src/lib.rs:100-133 (push_result) *)
Definition progress_push (p : progress_reporter) (r : tresult) : progress_reporter :=
  let f := is_fail_like (tr_status r) in
  tick_progress false
    {| pr_out := pr_out p ++ (if f then (if pr_wrote_first p then [INewline] else []) ++ [IFailing r] else []);
       pr_bar := pr_bar p; pr_ticks := pr_ticks p; pr_results := pr_results p + 1;
       pr_failing := pr_failing p + (if f then 1 else 0);
       pr_wrote_first := pr_wrote_first p || f |}.

(* the calls a reporter receives: results and ticks of the clock, in any order *)
Inductive pcall := PResult (r : tresult) | PTick.
Definition progress_step (p : progress_reporter) (c : pcall) : progress_reporter :=
  match c with PResult r => progress_push p r | PTick => tick_progress true p end.

(* ------------------------------------------------------------------ *)
(* The summary of a failing test                                        *)

(* u8::is_ascii_whitespace: space, tab, line feed, form feed, carriage return *)
Definition ascii_ws (b : N) : bool := (b =? 32) || (b =? 9) || (b =? 10) || (b =? 12) || (b =? 13).

(* abq_utils/src/whitespace.rs:1-13 (is_blank) *)
Definition is_blank (bytes : text) : bool := forallb ascii_ws bytes.

(* output.rs:379-385: the newlines among the trailing white space; argument reversed *)
Fixpoint trailing_newlines (rev_bytes : text) : N :=
  match rev_bytes with
  | b :: t => if ascii_ws b then (if b =? nl then 1 else 0) + trailing_newlines t else 0
  | [] => 0
  end.

(* output.rs:378-391 (push_newline_if_needed): what it writes *)
Definition push_newline_if_needed (bytes : text) : text :=
  if trailing_newlines (rev bytes) =? 0 then [nl] else [].

(* output.rs:364-374: one section; [header] is "------ STDOUT\n" or "------ STDERR\n" *)
Definition section (header : text) (output : option text) : text :=
  match output with
  | Some o => if is_blank o then [] else header ++ o ++ push_newline_if_needed o
  | None => []
  end.


Definition h_stdout : text := [45; 45; 45; 45; 45; 45; 32; 83; 84; 68; 79; 85; 84; 10].
Definition h_stderr : text := [45; 45; 45; 45; 45; 45; 32; 83; 84; 68; 69; 82; 82; 10].

(* output.rs:319-376 (format_test_result_summary): the title line "--- name: STATUS (attempt
   n) --- [worker w]" is given as a parameter; then the runner's message, stdout and stderr *)
Definition format_test_result_summary (title : text) (output stdout stderr : option text) : text :=
  title ++ [nl] ++
  (match output with Some o => if is_blank o then [] else o ++ [nl] | None => [] end) ++
  section h_stdout stdout ++ section h_stderr stderr.
