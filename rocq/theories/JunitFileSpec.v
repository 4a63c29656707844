(* What C91 says: how a program that reads XML reads a file (XML 1.0, fifth edition), and what a JUnit file
   ought to tell it.  Nothing here but the types of results is the model's.

   The reader is one for documents like these: elements with attributes in double quotes and with elements
   only as content.  It knows no doctype, no comments, no processing instructions but the XML declaration,
   and of references only those to the five predefined entities; a document with any other is refused. *)
From Coq Require Import String Ascii.
From Verif Require Import Base StatusModel ReportModel.
From Verif Require Import ReportersModel.
From Verif Require ReportersSpec.
From Coq Require Import NArith ZArith.
Open Scope N_scope.

Definition text := list N.
Definition lit (s : string) : text := map N_of_ascii (list_ascii_of_string s).
Fixpoint same (a b : text) : bool :=
  match a, b with [], [] => true | x :: a', y :: b' => (x =? y) && same a' b' | _, _ => false end.

(* ---- XML ---- *)

(* production [2]: the characters that may be in a document at all *)
Definition xml_char (c : N) : bool :=
  (c =? 9) || (c =? 10) || (c =? 13) || ((32 <=? c) && (c <=? 55295)) || ((57344 <=? c) && (c <=? 65533)) ||
  ((65536 <=? c) && (c <=? 1114111)).

(* 2.11: the ends of lines; a carriage return, with a line feed or without, is read as a line feed *)
Fixpoint line_ends (x : text) : text :=
  match x with
  | [] => []
  | c :: x' => if c =? 13 then 10 :: (match x' with d :: x'' => if d =? 10 then line_ends x'' else line_ends x' | [] => [] end)
               else c :: line_ends x'
  end.

(* 3.3.3: white space in the value of an attribute is read as a space *)
Definition spaced (c : N) : N := if (c =? 9) || (c =? 10) || (c =? 13) then 32 else c.
(* what is read of a value that was meant *)
Definition as_read (x : text) : text := map spaced (line_ends x).

Inductive node := Elem (name : text) (attributes : list (text * text)) (children : list node).

Fixpoint after (w x : text) : option text :=
  match w, x with
  | [], _ => Some x
  | a :: w', b :: x' => if a =? b then after w' x' else None
  | _, [] => None
  end.

(* the value of an attribute, up to the quote: 3.1 (no less-than sign), 4.6 (the predefined entities) *)
Definition entities : list (text * N) :=
  [(lit "lt;", 60); (lit "gt;", 62); (lit "amp;", 38); (lit "apos;", 39); (lit "quot;", 34)].
Definition entity (x : text) : option (N * text) :=
  fold_right (fun e rest => match after (fst e) x with Some x' => Some (snd e, x') | None => rest end) None entities.
Fixpoint value (fuel : nat) (x : text) : option (text * text) :=
  match fuel, x with
  | S f, c :: x' =>
      if c =? 34 then Some ([], x') else if c =? 60 then None
      else if c =? 38 then match entity x' with
                           | Some (d, x'') => match value f x'' with Some (v, r) => Some (d :: v, r) | None => None end
                           | None => None end
      else match value f x' with Some (v, r) => Some (spaced c :: v, r) | None => None end
  | _, _ => None
  end.

(* names: of letters here *)
Definition letter (c : N) : bool := ((65 <=? c) && (c <=? 90)) || ((97 <=? c) && (c <=? 122)).
Fixpoint letters (x : text) : text * text :=
  match x with c :: x' => if letter c then let '(n, r) := letters x' in (c :: n, r) else ([], x) | [] => ([], []) end.
Definition name (x : text) : option (text * text) := match letters x with ([], _) => None | nr => Some nr end.

(* the attributes of an element, and whether it ends there; no two have the same name (3.1) *)
Fixpoint attributes (fuel : nat) (x : text) : option (list (text * text) * bool * text) :=
  match fuel with
  | O => None
  | S f =>
      match x with
      | 62 :: x' => Some ([], false, x')
      | 47 :: 62 :: x' => Some ([], true, x')
      | 32 :: x' =>
          match name x' with
          | Some (n, 61 :: 34 :: x1) =>
              match value (List.length x1) x1 with
              | Some (v, x2) =>
                  match attributes f x2 with
                  | Some (l, e, r) => if existsb (fun a => same (fst a) n) l then None else Some ((n, v) :: l, e, r)
                  | None => None
                  end
              | None => None
              end
          | _ => None
          end
      | _ => None
      end
  end.

(* elements, up to an end tag or the end *)
Fixpoint elements (fuel : nat) (x : text) : option (list node * text) :=
  match fuel with
  | O => None
  | S f =>
      match x with
      | [] => Some ([], [])
      | 60 :: 47 :: _ => Some ([], x)
      | 60 :: x1 =>
          match name x1 with
          | Some (n, x2) =>
              match attributes (List.length x2) x2 with
              | Some (l, true, x3) => match elements f x3 with Some (es, r) => Some (Elem n l [] :: es, r) | None => None end
              | Some (l, false, x3) =>
                  match elements f x3 with
                  | Some (kids, x4) =>
                      match after (lit "</" ++ n ++ lit ">") x4 with
                      | Some x5 => match elements f x5 with Some (es, r) => Some (Elem n l kids :: es, r) | None => None end
                      | None => None
                      end
                  | None => None
                  end
              | None => None
              end
          | None => None
          end
      | _ => None
      end
  end.

(* a document: one element *)
Definition read_xml (x : text) : option node :=
  if forallb xml_char x then
    match after (lit "<?xml version=""1.0"" encoding=""utf-8""?>") (line_ends x) with
    | Some b => match elements (S (List.length b)) b with Some ([e], []) => Some e | _ => None end
    | None => None
    end
  else None.

(* ---- what is told ---- *)

Definition attribute (n : string) (e : node) : option text :=
  let '(Elem _ l _) := e in option_map snd (find (fun a => same (fst a) (lit n)) l).
Definition called (n : string) (e : node) : Prop := let '(Elem m _ _) := e in m = lit n.
Definition children (e : node) : list node := let '(Elem _ _ l) := e in l.

(* an element tells of a result, as [reads] has it of the texts *)
Definition tells (reads strip : text -> text) (r : full) (e : node) : Prop :=
  let message := reads (strip (match f_output r with Some o => o | None => [] end)) in
  let problem (element kind : string) := exists p, children e = [p] /\ called element p /\
        attribute "type" p = Some (lit kind) /\ attribute "message" p = Some message /\ children p = [] in
  called "testcase" e /\ attribute "name" e = Some (reads (f_name r)) /\
  match f_status r with
  | Success => children e = []
  | Failure => problem "failure" "failure"
  | Error | PrivateNativeRunnerError => problem "error" "error"
  | TimedOut => problem "error" "timed out"
  | Pending | Skipped | Todo => exists p, children e = [p] /\ called "skipped" p /\ children p = []
  end%string.

(* a number in the decimal system *)
Definition decimal (x : text) : N := fold_left (fun a c => 10 * a + (c - 48)) x 0.
Definition digit (c : N) : bool := (48 <=? c) && (c <=? 57).
Definition is_number (o : option text) (n : nat) : Prop :=
  exists x, o = Some x /\ x <> [] /\ forallb digit x = true /\ decimal x = N.of_nat n.
Definition how_many (ss : list rstatus) (rs : list full) : nat :=
  List.length (filter (fun r => if in_dec (fun a b : rstatus => ltac:(decide equality) : {a = b} + {a <> b}) (f_status r) ss then true else false) rs).

(* a document tells of all results, and how many there are *)
Definition tells_all (reads strip : text -> text) (rs : list full) (d : node) : Prop :=
  called "testsuites" d /\
  exists s, children d = [s] /\ called "testsuite" s /\ Forall2 (tells reads strip) rs (children s) /\
    is_number (attribute "tests" s) (List.length rs) /\
    is_number (attribute "failures" s) (how_many [Failure] rs) /\
    is_number (attribute "errors" s) (how_many [Error; TimedOut; PrivateNativeRunnerError] rs).

(* what a document says of the suite: its name and when it was; how long each test took, to the millisecond (nothing if it
   was not run), and all of them together *)
Definition tells_times (seconds : Z -> text) (timestamp : text) (rs : list full) (d : node) : Prop :=
  exists s nss, children d = [s] /\ attribute "name" s = Some (lit "suite") /\ attribute "timestamp" s = Some timestamp /\
    Forall2 (fun r ns => match f_status r with
                         | Pending | Skipped | Todo => ns = 0%Z
                         | _ => ReportersSpec.time_shown (f_runtime r) ns
                         end) rs nss /\
    map (attribute "time") (children s) = map (fun ns => Some (seconds ns)) nss /\
    attribute "time" s = Some (seconds (fold_right Z.add 0%Z nss)).

(* ---- the texts that are told ---- *)

(* the characters that a string can hold *)
Definition scalar (c : N) : Prop := c < 55296 \/ 57344 <= c < 1114112.
Definition a_string (x : text) : Prop := Forall scalar x.
(* without the characters that XML does not know *)
Definition writable (x : text) : Prop := Forall (fun c => xml_char c = true) x.
(* without white space other than spaces *)
Definition one_line (x : text) : Prop := Forall (fun c => c <> 9 /\ c <> 10 /\ c <> 13) x.

(* what is known of strip_ansi_escapes::strip: characters are left out, no others come in; of the control
   characters it keeps line feeds only *)
Definition strips (strip : text -> text) : Prop := forall x c, In c (strip x) -> In c x /\ (32 <= c \/ c = 10).
(* numbers of seconds are displayed with digits, a point and a sign; a time of day with these and letters *)
Definition plain (c : N) : Prop := 32 < c < 127 /\ c <> 34 /\ c <> 38 /\ c <> 39 /\ c <> 60 /\ c <> 62.
