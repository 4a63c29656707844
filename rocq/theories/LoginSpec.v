(* What C87 says about `abq login`, apart from how the model computes it. *)
From Verif Require Import Base LoginModel.
From Coq Require Import NArith.
Local Open Scope list_scope.

(* The contract of the TOML library: a configuration reads back as itself, and what is left of one
   that was cut off does not read as another (without its last line break it still reads as itself). *)
Record good_toml (toml : token -> text) (untoml : text -> option token) : Prop := {
  toml_reads : forall t, untoml (toml t) = Some t;
  toml_cut : forall t n, untoml (firstn n (toml t)) = None \/ untoml (firstn n (toml t)) = Some t }.

(* The login [k] was the last that truncated [p]. *)
Definition latest (log : list effect) (p : path) (k : nat) : Prop :=
  exists a b, log = a ++ Truncated k p :: b /\ forall k', ~ In (Truncated k' p) b.
Definition untouched (log : list effect) (p : path) : Prop := forall k, ~ In (Truncated k p) log.

(* Logins to one file do not overlap: once another has truncated it, an earlier one does not write to it. *)
Definition no_overlap (log : list effect) : Prop :=
  forall a k p b k' c n, log = a ++ Truncated k p :: b ++ Truncated k' p :: c -> k <> k' -> ~ In (Wrote k n) c.

(* What the process [k] was started with. *)
Definition given (es : list event) (k : nat) (l : login) : Prop :=
  exists a b, es = a ++ Start k l :: b /\ forall l', ~ In (Start k l') a.

(* White_Space in Unicode's PropList.txt *)
Definition spaces : list N :=
  [9; 10; 11; 12; 13; 32; 133; 160; 5760; 8192; 8193; 8194; 8195; 8196; 8197; 8198; 8199; 8200; 8201; 8202;
   8232; 8233; 8239; 8287; 12288]%N.
(* [t] is [x] without the white space around it. *)
Definition trimmed (x t : token) : Prop :=
  (exists a b, x = a ++ t ++ b /\ incl a spaces /\ incl b spaces) /\
  (forall c t', t = c :: t' -> ~ In c spaces) /\ (forall c t', t = t' ++ [c] -> ~ In c spaces).

(* no_overlap, to be computed for examples. *)
Fixpoint writes_after (k : nat) (p : path) (log : list effect) : bool :=
  match log with
  | Truncated k' q :: log' =>
      (if list_eq_dec Nat.eq_dec q p then negb (Nat.eqb k k') && existsb (fun e => match e with Wrote j _ => Nat.eqb j k | _ => false end) log' else false)
      || writes_after k p log'
  | _ :: log' => writes_after k p log'
  | [] => false
  end.
Fixpoint check_overlap (log : list effect) : bool :=
  match log with
  | Truncated k p :: log' => negb (writes_after k p log') && check_overlap log'
  | _ :: log' => check_overlap log'
  | [] => true
  end.

(* A reading of TOML that keeps the contract, for one-line strings: rwx_access_token = "..." *)
Definition ex_key : text := [114; 119; 120; 95; 97; 99; 99; 101; 115; 115; 95; 116; 111; 107; 101; 110; 32; 61; 32; 34].
Definition ex_escape (c : N) : text := if (c =? 34)%N || (c =? 92)%N then [92; N.to_nat c] else [N.to_nat c].
Definition ex_toml (t : token) : text := ex_key ++ flat_map ex_escape t ++ [34; 10].
Fixpoint ex_string (b : text) : option token :=
  match b with
  | 34 :: [] => Some []
  | 34 :: 10 :: [] => Some []
  | 34 :: _ => None
  | 92 :: c :: b' => option_map (cons (N.of_nat c)) (ex_string b')
  | 92 :: [] => None
  | c :: b' => option_map (cons (N.of_nat c)) (ex_string b')
  | [] => None
  end.
Definition ex_untoml (b : text) : option token :=
  if list_eq_dec Nat.eq_dec (firstn (length ex_key) b) ex_key then ex_string (skipn (length ex_key) b) else None.
