(* What C45, C56, C62 and C63 say, without the model's functions. *)
From Verif Require Import Base StatusModel TermModel.
From Coq Require Import NArith.
Open Scope N_scope.

(* a path that can be given in an option: something other than white space, without '=' *)
Definition plain_path (p : text) : Prop := ~ In 61 p /\ exists c, In c p /\ white_space c = false.

Definition path_of (k : reporter_kind) : option text :=
  match k with RkJUnitXml p | RkRwxV1Json p => Some p | _ => None end.

(* the marks of the dot reporter: . passed, F failed, E error, P pending, S skipped *)
Definition mark_for (s : rstatus) (c : N) : Prop :=
  match s with
  | Success => c = 46
  | Failure | TimedOut => c = 70
  | Error | PrivateNativeRunnerError => c = 69
  | Pending => c = 80
  | Skipped | Todo => c = 83
  end.

(* marks laid out in lines: every line but the last has 80 of them, the last between 1 and 80 *)
Definition laid_out (marks : list N) (lines : list (list N)) : Prop :=
  concat lines = marks /\
  forall a l b, lines = a ++ l :: b -> (1 <= length l <= 80)%nat /\ (b <> [] -> length l = 80%nat).

(* what a sequence of calls amounts to *)
Definition results_in (cs : list pcall) : list tresult := flat_map (fun c => match c with PResult r => [r] | PTick => [] end) cs.
Definition ticks_in (cs : list pcall) : nat := length (filter (fun c => match c with PTick => true | _ => false end) cs).
Definition failing_in (cs : list pcall) : list tresult := filter (fun r => is_fail_like (tr_status r)) (results_in cs).

(* separated by blank lines: none at the beginning or the end, one between two items *)
Fixpoint separated (l : list item) : list item :=
  match l with
  | [] => []
  | [x] => [x]
  | x :: t => x :: INewline :: separated t
  end.

(* a text after which the next one starts a line *)
Definition whole_lines (s : text) : Prop := s = [] \/ exists s', s = s' ++ [10].

(* white space at the end of a text *)
Definition ends_with_newline_then_blanks (s : text) : Prop :=
  exists a b, s = a ++ [10] ++ b /\ b <> [] /\ forallb ascii_ws b = true /\ ~ In 10 b.
