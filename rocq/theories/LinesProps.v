(* What the line reporter writes, spelt out (C79). *)
From Coq Require Import String Ascii NArith.
From Verif Require Import Base StatusModel TermModel ReportersModel.
Local Open Scope nat_scope. Local Open Scope list_scope.

Definition in_letters (s : string) : list N := map N_of_ascii (list_ascii_of_string s).
Arguments in_letters s%string_scope.
Definition word_for (s : rstatus) : list N :=
  match s with
  | Success => in_letters "ok"
  | Failure => in_letters "FAILED"
  | Error | PrivateNativeRunnerError => in_letters "ERRORED"
  | TimedOut => in_letters "TIMED OUT"
  | Pending => in_letters "pending"
  | Todo => in_letters "todo"
  | Skipped => in_letters "skipped"
  end.

(* For each result in turn a line with the name of the test, a colon and how it went; below that of a native runner that
   broke down, what it said, and nothing below the others. *)
Theorem C79_lines_spelt : forall rs,
  flat_map line_push rs = flat_map (fun r =>
    f_name r ++ in_letters ": " ++ word_for (f_status r) ++ [10%N] ++
    match f_status r with
    | PrivateNativeRunnerError => match f_output r with Some o => o | None => in_letters "<no output>" end ++ [10%N]
    | _ => []
    end) rs.
Proof.
  intros rs. apply flat_map_ext. intros r. unfold line_push, result_line. rewrite <- !app_assoc. destruct (f_status r); reflexivity.
Qed.

Print Assumptions C79_lines_spelt.
