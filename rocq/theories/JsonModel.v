(* Model of the JSON text format as serde_json writes it (compact formatter:
   to_vec, to_writer) and reads it (from_slice, from_str, from_reader), for the
   uses in crates/abq_queue/src/persistence/{results,manifest}/fs.rs,
   crates/abq_queue/src/persistence/run_state.rs:85-111 and
   crates/abq_utils/src/net_protocol.rs:754-795, 1320-1346.  serde_json is a
   dependency, not part of /repo; this is its documented behaviour.
   Simplifications: a number is its text, which serde_json rounds (a number
   too large to be rounded is read here); strings are byte strings, UTF-8 is not checked. *)
From Coq Require Import NArith.
From Verif Require Import Base.
Import ListNotations.

Inductive json :=
| JNull
| JBool (b : bool)
| JNum (text : bytes)
| JStr (s : bytes)
| JArr (l : list json)
| JObj (l : list (bytes * json)).

(* ASCII *)
Definition c_quote : byte := 34.   Definition c_back : byte := 92.   Definition c_slash : byte := 47.
Definition c_comma : byte := 44.   Definition c_colon : byte := 58.
Definition c_lbrack : byte := 91.  Definition c_rbrack : byte := 93.
Definition c_lbrace : byte := 123. Definition c_rbrace : byte := 125.
Definition s_null : bytes := [110; 117; 108; 108].
Definition s_true : bytes := [116; 114; 117; 101].
Definition s_false : bytes := [102; 97; 108; 115; 101].

(* ---- writing ---- *)

Definition hex_digit (n : nat) : byte := if Nat.ltb n 10 then 48 + n else 87 + n.

(* serde_json's ESCAPE table: control characters, the quote and the backslash. *)
Definition esc (b : byte) : bytes :=
  if Nat.eqb b 34 then [92; 34]
  else if Nat.eqb b 92 then [92; 92]
  else if Nat.eqb b 8 then [92; 98]
  else if Nat.eqb b 9 then [92; 116]
  else if Nat.eqb b 10 then [92; 110]
  else if Nat.eqb b 12 then [92; 102]
  else if Nat.eqb b 13 then [92; 114]
  else if Nat.ltb b 32 then [92; 117; 48; 48; hex_digit (b / 16); hex_digit (b mod 16)]
  else [b].

Definition write_str (s : bytes) : bytes := c_quote :: flat_map esc s ++ [c_quote].

Fixpoint sep (l : list bytes) : bytes :=
  match l with
  | [] => []
  | [x] => x
  | x :: l' => x ++ c_comma :: sep l'
  end.

Fixpoint write (j : json) : bytes :=
  match j with
  | JNull => s_null
  | JBool true => s_true
  | JBool false => s_false
  | JNum t => t
  | JStr s => write_str s
  | JArr l => c_lbrack :: sep (map write l) ++ [c_rbrack]
  | JObj l => c_lbrace :: sep (map (fun '(k, v) => write_str k ++ c_colon :: write v) l) ++ [c_rbrace]
  end.

(* ---- reading ---- *)

Definition is_ws (b : byte) : bool := Nat.eqb b 32 || Nat.eqb b 9 || Nat.eqb b 10 || Nat.eqb b 13.
Fixpoint skip_ws (b : bytes) : bytes :=
  match b with
  | c :: b' => if is_ws c then skip_ws b' else b
  | [] => []
  end.

Fixpoint strip (p b : bytes) : option bytes :=
  match p, b with
  | [], _ => Some b
  | x :: p', y :: b' => if Nat.eqb x y then strip p' b' else None
  | _ :: _, [] => None
  end.

Definition is_digit (b : byte) : bool := Nat.leb 48 b && Nat.leb b 57.
(* digits and + - . e E *)
Definition is_num (b : byte) : bool :=
  is_digit b || Nat.eqb b 43 || Nat.eqb b 45 || Nat.eqb b 46 || Nat.eqb b 101 || Nat.eqb b 69.
Fixpoint span_num (b : bytes) : bytes * bytes :=
  match b with
  | c :: b' => if is_num c then let '(t, r) := span_num b' in (c :: t, r) else ([], b)
  | [] => ([], [])
  end.

(* perhaps a minus, an integer without leading zero, perhaps a dot and digits, perhaps an exponent: serde_json's parse_integer, parse_decimal and parse_exponent *)
Fixpoint skip_digits (b : bytes) : bytes :=
  match b with
  | c :: b' => if is_digit c then skip_digits b' else b
  | [] => []
  end.
Definition skip_digits1 (b : bytes) : option bytes :=
  match b with
  | c :: b' => if is_digit c then Some (skip_digits b') else None
  | [] => None
  end.
Definition is_exponent (b : bytes) : bool :=
  match b with
  | [] => true
  | c :: b' =>
      (Nat.eqb c 101 || Nat.eqb c 69) &&
      match skip_digits1 (match b' with s :: b'' => if Nat.eqb s 43 || Nat.eqb s 45 then b'' else b' | [] => [] end) with Some [] => true | _ => false end
  end.
Definition is_fraction (b : bytes) : bool :=
  match b with
  | c :: b' => if Nat.eqb c 46 then match skip_digits1 b' with Some r => is_exponent r | None => false end else is_exponent b
  | [] => true
  end.
Definition is_unsigned (b : bytes) : bool :=
  match b with
  | c :: b' => if Nat.eqb c 48 then is_fraction b' else match skip_digits1 b with Some r => is_fraction r | None => false end
  | [] => false
  end.
Definition is_number (b : bytes) : bool :=
  match b with
  | c :: b' => if Nat.eqb c 45 then is_unsigned b' else is_unsigned b
  | [] => false
  end.

Definition hex_val (b : byte) : option nat :=
  if is_digit b then Some (b - 48)
  else if Nat.leb 97 b && Nat.leb b 102 then Some (b - 87)
  else if Nat.leb 65 b && Nat.leb b 70 then Some (b - 55)
  else None.

Definition unescape (c : byte) : option byte :=
  if Nat.eqb c 34 then Some 34 else if Nat.eqb c 92 then Some 92 else if Nat.eqb c 47 then Some 47
  else if Nat.eqb c 98 then Some 8 else if Nat.eqb c 102 then Some 12 else if Nat.eqb c 110 then Some 10
  else if Nat.eqb c 114 then Some 13 else if Nat.eqb c 116 then Some 9 else None.

(* serde_json's parse_unicode_escape: the UTF-8 of a code point *)
Definition utf8 (n : N) : bytes :=
  (if n <? 128 then [N.to_nat n]
   else if n <? 2048 then [192 + N.to_nat (n / 64); 128 + N.to_nat (n mod 64)]%nat
   else if n <? 65536 then [224 + N.to_nat (n / 4096); 128 + N.to_nat (n / 64 mod 64); 128 + N.to_nat (n mod 64)]%nat
   else [240 + N.to_nat (n / 262144); 128 + N.to_nat (n / 4096 mod 64); 128 + N.to_nat (n / 64 mod 64); 128 + N.to_nat (n mod 64)]%nat)%N.
(* four hexadecimal digits *)
Definition hex4 (h1 h2 h3 h4 : byte) : option N :=
  match hex_val h1, hex_val h2, hex_val h3, hex_val h4 with
  | Some x1, Some x2, Some x3, Some x4 => Some (4096 * N.of_nat x1 + 256 * N.of_nat x2 + 16 * N.of_nat x3 + N.of_nat x4)%N
  | _, _, _, _ => None
  end.
(* \uXXXX after its u: the code point, and the rest; a leading surrogate needs a trailing one behind it, and a trailing
   one may not stand alone *)
Definition read_unicode (b : bytes) : option (N * bytes) :=
  match b with
  | h1 :: h2 :: h3 :: h4 :: b1 =>
      match hex4 h1 h2 h3 h4 with
      | Some n =>
          if ((n <? 55296) || (57344 <=? n))%N then Some (n, b1)
          else if (n <? 56320)%N then
            match b1 with
            | c1 :: c2 :: g1 :: g2 :: g3 :: g4 :: b2 =>
                if Nat.eqb c1 92 && Nat.eqb c2 117 then
                  match hex4 g1 g2 g3 g4 with
                  | Some m => if ((56320 <=? m) && (m <? 57344))%N then Some (65536 + (n - 55296) * 1024 + (m - 56320), b2)%N else None
                  | None => None
                  end
                else None
            | _ => None
            end
          else None
      | None => None
      end
  | _ => None
  end.

(* The rest of a string, after the opening quote; raw control characters are errors.  [fuel] bounds its length. *)
Fixpoint read_chars_of (fuel : nat) (b : bytes) : option (bytes * bytes) :=
  match fuel with
  | 0 => None
  | S fuel' =>
      match b with
      | [] => None
      | c :: b1 =>
          if Nat.eqb c 34 then Some ([], b1)
          else if Nat.eqb c 92 then
            match b1 with
            | [] => None
            | e :: b2 =>
                if Nat.eqb e 117 then
                  match read_unicode b2 with
                  | Some (n, b3) => match read_chars_of fuel' b3 with Some (s, r) => Some (utf8 n ++ s, r) | None => None end
                  | None => None
                  end
                else match unescape e with
                     | Some x => match read_chars_of fuel' b2 with Some (s, r) => Some (x :: s, r) | None => None end
                     | None => None
                     end
            end
          else if Nat.ltb c 32 then None
          else match read_chars_of fuel' b1 with Some (s, r) => Some (c :: s, r) | None => None end
      end
  end.
Definition read_str (b : bytes) : option (bytes * bytes) := read_chars_of (length b) b.

(* Elements of an array after '[' or ',': values separated by commas up to ']'.
   [fuel] bounds the number of elements; the length of the text is enough. *)
Section Loops.
Context (rv : bytes -> option (json * bytes)).   (* reads one value *)

Fixpoint read_elems (fuel : nat) (b : bytes) : option (list json * bytes) :=
  match fuel with
  | 0 => None
  | S fuel' =>
      match rv b with
      | None => None
      | Some (v, b1) =>
          match skip_ws b1 with
          | c :: b2 =>
              if Nat.eqb c c_rbrack then Some ([v], b2)
              else if Nat.eqb c c_comma then
                match read_elems fuel' b2 with Some (vs, r) => Some (v :: vs, r) | None => None end
              else None
          | [] => None
          end
      end
  end.

Fixpoint read_members (fuel : nat) (b : bytes) : option (list (bytes * json) * bytes) :=
  match fuel with
  | 0 => None
  | S fuel' =>
      match skip_ws b with
      | q :: b0 =>
          if Nat.eqb q c_quote then
            match read_str b0 with
            | None => None
            | Some (k, b1) =>
                match skip_ws b1 with
                | c :: b2 =>
                    if Nat.eqb c c_colon then
                      match rv b2 with
                      | None => None
                      | Some (v, b3) =>
                          match skip_ws b3 with
                          | d :: b4 =>
                              if Nat.eqb d c_rbrace then Some ([(k, v)], b4)
                              else if Nat.eqb d c_comma then
                                match read_members fuel' b4 with
                                | Some (ms, r) => Some ((k, v) :: ms, r)
                                | None => None
                                end
                              else None
                          | [] => None
                          end
                      end
                    else None
                | [] => None
                end
            end
          else None
      | [] => None
      end
  end.
End Loops.

(* One value.  [depth] is serde_json's remaining_depth: entering an array or object
   takes one, and it is an error to reach 0. *)
Fixpoint read_value (depth : nat) (b : bytes) : option (json * bytes) :=
  match skip_ws b with
  | [] => None
  | c :: b1 =>
      if Nat.eqb c c_quote then
        match read_str b1 with Some (s, r) => Some (JStr s, r) | None => None end
      else if Nat.eqb c c_lbrack then
        match depth with
        | S (S _ as depth') =>
            match skip_ws b1 with
            | d :: b2 => if Nat.eqb d c_rbrack then Some (JArr [], b2)
                         else match read_elems (read_value depth') (length b1) b1 with
                              | Some (l, r) => Some (JArr l, r) | None => None end
            | [] => None
            end
        | _ => None
        end
      else if Nat.eqb c c_lbrace then
        match depth with
        | S (S _ as depth') =>
            match skip_ws b1 with
            | d :: b2 => if Nat.eqb d c_rbrace then Some (JObj [], b2)
                         else match read_members (read_value depth') (length b1) b1 with
                              | Some (l, r) => Some (JObj l, r) | None => None end
            | [] => None
            end
        | _ => None
        end
      else if is_digit c || Nat.eqb c 45 then let '(t, r) := span_num b1 in if is_number (c :: t) then Some (JNum (c :: t), r) else None
      else match strip s_null (c :: b1) with
           | Some r => Some (JNull, r)
           | None => match strip s_true (c :: b1) with
                     | Some r => Some (JBool true, r)
                     | None => match strip s_false (c :: b1) with
                               | Some r => Some (JBool false, r)
                               | None => None
                               end
                     end
           end
  end.

(* serde_json's default recursion limit *)
Definition recursion_limit := 128.

(* from_slice / from_str: a value, then nothing but whitespace. *)
Definition read_json (b : bytes) : option json :=
  match read_value recursion_limit b with
  | Some (j, r) => match skip_ws r with [] => Some j | _ => None end
  | None => None
  end.
