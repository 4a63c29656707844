(* The vocabulary of C95: the texts that are JSON (RFC 8259), as a grammar.  A number is its text; strings are byte
   strings (see JsonModel). *)
From Coq Require Import NArith.
From Verif Require Import Base JsonModel.
Import ListNotations.

(* blank, tab, newline, carriage return *)
Definition blanks (w : bytes) : Prop := Forall (fun c => In c [32; 9; 10; 13]) w.

(* the escapes by one character, with what they mean *)
Definition short_escapes : list (byte * byte) :=
  [(34, 34); (92, 92); (47, 47); (98, 8); (102, 12); (110, 10); (114, 13); (116, 9)].
Definition hex (b : byte) (n : nat) : Prop :=
  n < 10 /\ b = 48 + n \/ 10 <= n < 16 /\ (b = 87 + n \/ b = 55 + n).

(* four of them; [unit_of n]: the code unit [n] *)
Definition unit_of (n : N) (b : bytes) : Prop := exists h1 h2 h3 h4 x1 x2 x3 x4, b = [h1; h2; h3; h4] /\
  hex h1 x1 /\ hex h2 x2 /\ hex h3 x3 /\ hex h4 x4 /\ n = (((N.of_nat x1 * 16 + N.of_nat x2) * 16 + N.of_nat x3) * 16 + N.of_nat x4)%N.
(* UTF-8 (RFC 3629): the code point of a sequence of bytes, of which the shortest is to be used *)
Inductive utf8_of : N -> bytes -> Prop :=
| u8_one a : (a < 128)%N -> utf8_of a [N.to_nat a]
| u8_two a b : (a < 32)%N -> (b < 64)%N -> (128 <= a * 64 + b)%N -> utf8_of (a * 64 + b) [192 + N.to_nat a; 128 + N.to_nat b]
| u8_three a b c : (a < 16)%N -> (b < 64)%N -> (c < 64)%N -> (2048 <= (a * 64 + b) * 64 + c)%N ->
    utf8_of ((a * 64 + b) * 64 + c) [224 + N.to_nat a; 128 + N.to_nat b; 128 + N.to_nat c]
| u8_four a b c d : (a < 8)%N -> (b < 64)%N -> (c < 64)%N -> (d < 64)%N -> (65536 <= ((a * 64 + b) * 64 + c) * 64 + d)%N ->
    utf8_of (((a * 64 + b) * 64 + c) * 64 + d) [240 + N.to_nat a; 128 + N.to_nat b; 128 + N.to_nat c; 128 + N.to_nat d].

(* one character of a string, with its bytes; characters beyond those of one code unit are written as two (UTF-16) *)
Inductive spells_char : bytes -> bytes -> Prop :=
| ch_plain c : 32 <= c -> c <> 34 -> c <> 92 -> spells_char [c] [c]
| ch_short e c : In (e, c) short_escapes -> spells_char [c] [92; e]
| ch_unit n u s : unit_of n u -> (n < 55296 \/ 57344 <= n)%N -> utf8_of n s -> spells_char s (92 :: 117 :: u)
| ch_units n m u v s : unit_of n u -> unit_of m v -> (55296 <= n < 56320)%N -> (56320 <= m < 57344)%N ->
    utf8_of (65536 + (n - 55296) * 1024 + (m - 56320)) s -> spells_char s (92 :: 117 :: u ++ 92 :: 117 :: v).
Inductive spells_chars : bytes -> bytes -> Prop :=
| cs_none : spells_chars [] []
| cs_more c s b bs : spells_char c b -> spells_chars s bs -> spells_chars (c ++ s) (b ++ bs).

Definition digit (c : byte) : Prop := 48 <= c <= 57.
Definition digits (t : bytes) : Prop := t <> [] /\ Forall digit t.
(* a number: perhaps a minus, an integer without leading zero, perhaps a dot and digits, perhaps an exponent *)
Definition number (t : bytes) : Prop := exists sign int frac exp, t = sign ++ int ++ frac ++ exp /\
  (sign = [] \/ sign = [45]) /\
  (int = [48] \/ digits int /\ hd_error int <> Some 48) /\
  (frac = [] \/ exists d, digits d /\ frac = 46 :: d) /\
  (exp = [] \/ exists e s d, In e [101; 69] /\ In s [[]; [43]; [45]] /\ digits d /\ exp = e :: s ++ d).

Inductive spells : json -> bytes -> Prop :=
| sp_null : spells JNull [110; 117; 108; 108]
| sp_true : spells (JBool true) [116; 114; 117; 101]
| sp_false : spells (JBool false) [102; 97; 108; 115; 101]
| sp_num t : number t -> spells (JNum t) t
| sp_str s b : spells_chars s b -> spells (JStr s) (34 :: b ++ [34])
| sp_no_elems w : blanks w -> spells (JArr []) (91 :: w ++ [93])
| sp_arr l b : spells_elems l b -> spells (JArr l) (91 :: b ++ [93])
| sp_no_members w : blanks w -> spells (JObj []) (123 :: w ++ [125])
| sp_obj l b : spells_members l b -> spells (JObj l) (123 :: b ++ [125])
(* one or more, with commas between *)
with spells_elems : list json -> bytes -> Prop :=
| el_one v w1 b w2 : blanks w1 -> spells v b -> blanks w2 -> spells_elems [v] (w1 ++ b ++ w2)
| el_more v vs w1 b w2 bs : blanks w1 -> spells v b -> blanks w2 -> spells_elems vs bs -> spells_elems (v :: vs) (w1 ++ b ++ w2 ++ 44 :: bs)
with spells_members : list (bytes * json) -> bytes -> Prop :=
| me_one k v w1 kb w2 w3 b w4 : blanks w1 -> spells_chars k kb -> blanks w2 -> blanks w3 -> spells v b -> blanks w4 ->
    spells_members [(k, v)] (w1 ++ 34 :: kb ++ 34 :: w2 ++ 58 :: w3 ++ b ++ w4)
| me_more k v vs w1 kb w2 w3 b w4 bs : blanks w1 -> spells_chars k kb -> blanks w2 -> blanks w3 -> spells v b -> blanks w4 ->
    spells_members vs bs -> spells_members ((k, v) :: vs) (w1 ++ 34 :: kb ++ 34 :: w2 ++ 58 :: w3 ++ b ++ w4 ++ 44 :: bs).

(* a text: a value, with blanks around it *)
Definition is_text_of (j : json) (b : bytes) : Prop := exists w1 v w2, b = w1 ++ v ++ w2 /\ blanks w1 /\ spells j v /\ blanks w2.
