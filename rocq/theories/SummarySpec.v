(* How somebody reads the printed summary, and what it ought to tell them.  Nothing here but the types is the model's. *)
From Verif Require Import Base SummaryModel.
From Verif Require ReportModel ReportSpec.
From Coq Require Import NArith String Sorting.Sorted.
Open Scope N_scope.

(* ---- what is seen, and in which colours ---- *)
Definition seen (ops : list wop) : text := flat_map (fun o => match o with Put x => x | _ => [] end) ops.
(* every character with the colour in which it is shown, and the colour that is left behind *)
Fixpoint painted (c : option colour) (ops : list wop) : list (N * option colour) * option colour :=
  match ops with
  | [] => ([], c)
  | Put x :: ops' => let '(l, c') := painted c ops' in (map (fun a => (a, c)) x ++ l, c')
  | SetColour c0 :: ops' => painted (Some c0) ops'
  | ResetColour :: ops' => painted None ops'
  end.

(* ---- reading ---- *)
(* lines end with a line feed; what follows the last one is a line if it is not empty *)
Fixpoint lines_acc (cur : text) (x : text) : list text :=
  match x with
  | [] => match cur with [] => [] | _ => [rev cur] end
  | c :: x' => if N.eqb c 10 then rev cur :: lines_acc [] x' else lines_acc (c :: cur) x'
  end.
Definition lines (x : text) : list text := lines_acc [] x.
(* after a word *)
Fixpoint after (w x : text) : option text :=
  match w, x with
  | [], _ => Some x
  | a :: w', b :: x' => if N.eqb a b then after w' x' else None
  | _, [] => None
  end.
Fixpoint skip_spaces (x : text) : text := match x with c :: x' => if N.eqb c 32 then skip_spaces x' else x | [] => [] end.
Definition is_digit (c : N) : bool := (48 <=? c) && (c <=? 57).
(* a number, and how many digits it has *)
Fixpoint number_acc (x : text) (a : N) (k : nat) : N * nat * text :=
  match x with c :: x' => if is_digit c then number_acc x' (10 * a + (c - 48)) (S k) else (a, k, x) | [] => (a, k, []) end.
Definition number (x : text) : option (N * text) := match number_acc x 0 0%nat with (_, 0%nat, _) => None | (a, _, x') => Some (a, x') end.
Definition bind {A B} (o : option A) (f : A -> option B) : option B := match o with Some a => f a | None => None end.
(* "12.34": 1234 hundredths *)
Definition hundredths_read (x : text) : option (N * text) :=
  bind (number x) (fun '(a, x) => bind (after (t ".") x) (fun x =>
    match number_acc x 0 0%nat with (b, 2%nat, x') => Some (100 * a + b, x') | _ => None end)).

(* the two lines of numbers *)
Definition read_times (x : text) : option (N * N) :=
  bind (after (t "Finished in ") x) (fun x => bind (hundredths_read x) (fun '(w, x) => bind (after (t " seconds (") x) (fun x =>
  bind (hundredths_read x) (fun '(s, x) => match after (t " seconds spent in test code)") x with Some [] => Some (w, s) | _ => None end)))).
Definition read_numbers (x : text) : option (N * N * N) :=
  bind (number x) (fun '(a, x) => bind (after (t " tests, ") x) (fun x => bind (number x) (fun '(b, x) => bind (after (t " failures") x) (fun x =>
  match x with
  | [] => Some (a, b, 0)
  | _ => bind (after (t ", ") x) (fun x => bind (number x) (fun '(c, x) => match after (t " retried") x with Some [] => Some (a, b, c) | _ => None end))
  end)))).

(* the other lines *)
Inductive item := Blank | Retries | Failures | Who (g : grouping) (k : N) | Row (n : N) (file : text).
Definition read_who (x : text) : option item :=
  match after (t "    worker ") x with
  | Some x' => bind (number x') (fun '(k, r) => if text_eqb r (t ":") then Some (Who Worker k) else None)
  | None => match after (t "    runner ") x with
            | Some x' => bind (number x') (fun '(k, r) => if text_eqb r (t ":") then Some (Who Runner k) else None)
            | None => None
            end
  end.
Definition read_row (x : text) : option item :=
  bind (after (t "    ") x) (fun x => bind (number (skip_spaces x)) (fun '(n, x) => bind (after (t "   ") x) (fun f => Some (Row n f)))).
Definition read_line (x : text) : option item :=
  if text_eqb x [] then Some Blank
  else if text_eqb x (t "Retries:") then Some Retries
  else if text_eqb x (t "Failures:") then Some Failures
  else match read_who x with Some i => Some i | None => read_row x end.

(* who has how many of what in which files *)
Definition table := list ((grouping * N) * list (text * N)).
Record told := { in_all : N * N; tests : N; failing : N; retried : N; retries : table; failures : table }.
Definition add_row (r : text * N) (b : table) : option table :=
  match rev b with [] => None | (w, rows) :: b' => Some (rev ((w, rows ++ [r]) :: b')) end.
(* [mode]: false while reading the retries, true while reading the failures *)
Fixpoint read_items (mode : option bool) (rs fs : table) (xs : list text) : option (table * table) :=
  match xs with
  | [] => Some (rs, fs)
  | x :: xs' =>
      bind (read_line x) (fun i =>
      match i, mode with
      | Blank, _ => read_items mode rs fs xs'
      | Retries, None => read_items (Some false) rs fs xs'
      | Failures, None | Failures, Some false => read_items (Some true) rs fs xs'
      | Who g k, Some false => read_items mode (rs ++ [((g, k), [])]) fs xs'
      | Who g k, Some true => read_items mode rs (fs ++ [((g, k), [])]) xs'
      | Row n f, Some false => bind (add_row (f, n) rs) (fun rs => read_items mode rs fs xs')
      | Row n f, Some true => bind (add_row (f, n) fs) (fun fs => read_items mode rs fs xs')
      | _, _ => None
      end)
  end.
(* the header is three lines and an empty one *)
Definition read_summary (x : text) : option told :=
  match lines x with
  | _ :: _ :: _ :: [] :: l1 :: l2 :: xs =>
      bind (read_times l1) (fun w => bind (read_numbers l2) (fun '(a, b, c) => bind (read_items None [] [] xs) (fun '(rs, fs) =>
      Some {| in_all := w; tests := a; failing := b; retried := c; retries := rs; failures := fs |})))
  | _ => None
  end.

(* ---- what there is to tell ---- *)
(* the counts of a file in one map; in all runners of a worker, or with that number *)
Definition count_in (f : text) (c : counts) : N := fold_right N.add 0 (map (fun e => if text_eqb (fst e) f then snd e else 0) c).
Definition belongs (g : grouping) (k : N) (u : runner_summary) : bool := N.eqb (match g with Worker => fst (runner u) | Runner => snd (runner u) end) k.
Definition total (sel : runner_summary -> counts) (f : text) (us : list runner_summary) : N := fold_right N.add 0 (map (fun u => count_in f (sel u)) us).
(* someone of them has counted something of that file *)
Definition counted (sel : runner_summary -> counts) (f : text) (us : list runner_summary) : Prop := exists u n, In u us /\ In (f, n) (sel u).

(* one line per file, in order; one block per worker or runner that has a file, in order; the numbers are the sums *)
Definition tells (s : short_summary) (sel : runner_summary -> counts) (b : table) : Prop :=
  StronglySorted (fun x y => snd (fst x) < snd (fst y)) b /\
  Forall (fun x => fst (fst x) = grouped_by s /\ snd x <> [] /\ StronglySorted (fun a b => text_cmp (fst a) (fst b) = Lt) (snd x)) b /\
  forall k f n, (exists rows, In ((grouped_by s, k), rows) b /\ In (f, n) rows) <->
                counted sel f (filter (belongs (grouped_by s) k) (runner_summaries s)) /\ n = total sel f (filter (belongs (grouped_by s) k) (runner_summaries s)).

(* a map has each key once *)
Definition maps (s : short_summary) : Prop := forall u, In u (runner_summaries s) -> NoDup (map fst (failures_per_file u)) /\ NoDup (map fst (retries_per_file u)).
(* no name of a file has a line feed *)
Definition one_line (s : short_summary) : Prop := forall u f n, In u (runner_summaries s) -> In (f, n) (failures_per_file u ++ retries_per_file u) -> ~ In 10 f.
(* rounding to the nearest hundredth of a second, ties either way.  Of less than 2^50 milliseconds (thirty thousand years) a double
   divided by 1000 is off by less than an eighth of a millisecond, which changes only to which side a tie goes. *)
Definition nearest (hundredths : N -> N) : Prop := forall ms, ms < 2 ^ 50 -> 10 * hundredths ms <= ms + 5 /\ ms <= 10 * hundredths ms + 5.
(* less than six milliseconds off *)
Definition about (h ns : N) : Prop := h * 10000000 < ns + 6000000 /\ ns < h * 10000000 + 6000000.

(* what a line says: this worker (or runner) has so many in that file *)
Definition says (b : table) (g : grouping) (k : N) (f : text) (n : N) : Prop := exists rows, In ((g, k), rows) b /\ In (f, n) rows.
(* names are told apart and have no line feed *)
Definition names (name : nat -> text) : Prop := (forall a b, name a = name b -> a = b) /\ forall a, ~ In 10 (name a).
(* the result is of a test of that file, and of that worker (or a runner of that number) *)
Definition of_file_at (g : grouping) (k f : nat) (e : ReportSpec.entry) : Prop :=
  ReportModel.r_file (ReportSpec.e_result e) = Some f /\ match g with Worker => fst | Runner => snd end (ReportModel.r_runner (ReportSpec.e_result e)) = k.
