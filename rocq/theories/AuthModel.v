(* Access tokens, authentication of connections, and the identity of test commands.
   crates/abq_utils/src/auth/{token,user,admin,strategy}.rs, crates/abq_utils/src/test_command_hash.rs,
   crates/abq_utils/src/net_async/tcp.rs.  Text is its UTF-8 bytes, a byte is a nat.
   Simplification: searching for an ASCII prefix in a str is searching in its bytes
   (UTF-8 never has an ASCII byte inside another character). *)
From Verif Require Import Base.

(* ------------------------------------------------------------------ *)
(* Tokens                                                               *)

(* auth/token.rs:9 (TOKEN_LEN) *)
Definition TOKEN_LEN : nat := 30.

(* auth/token.rs:39 (char::is_ascii_alphanumeric of a byte): 0-9, A-Z, a-z *)
Definition alnum (c : nat) : bool :=
  (48 <=? c) && (c <=? 57) || (65 <=? c) && (c <=? 90) || (97 <=? c) && (c <=? 122).

(* core::str::strip_prefix on bytes; used to write str::split below *)
Fixpoint strip (p s : list nat) : option (list nat) :=
  match p, s with
  | [], _ => Some s
  | _ :: _, [] => None
  | a :: p', b :: s' => if Nat.eqb a b then strip p' s' else None
  end.

(* one step of core::str::split(prefix), token.rs:50: the text before the leftmost
   occurrence and, if there is one, the text after it *)
Fixpoint cut (p s : list nat) : list nat * option (list nat) :=
  match strip p s with
  | Some rest => ([], Some rest)
  | None =>
      match s with
      | [] => ([], None)
      | c :: t => let '(b, a) := cut p t in (c :: b, a)
      end
  end.

(* auth/token.rs:37-45 (RawToken::from_buf) *)
Definition from_buf (buf : list nat) : option (list nat) :=
  if forallb alnum buf then Some buf else None.

(* auth/token.rs:47-66 (RawToken::parse_human_readable); None = Err(InvalidToken).
   Only the first two parts of the split are looked at. *)
Definition parse_human_readable (s prefix : list nat) : option (list nat) :=
  let '(before, rest) := cut prefix s in
  match before with
  | _ :: _ => None
  | [] =>
      match rest with
      | None => None
      | Some r =>
          let after := fst (cut prefix r) in
          if Nat.eqb (length after) TOKEN_LEN then from_buf after else None
      end
  end.

(* auth/token.rs:68-78 (RawToken::display_human_readable) *)
Definition display_human_readable (tok prefix : list nat) : list nat := prefix ++ tok.

(* auth/user.rs:11 : "abqs_" ; auth/admin.rs:10 : "abqadmin_" *)
Definition user_prefix : list nat := [97; 98; 113; 115; 95].
Definition admin_prefix : list nat := [97; 98; 113; 97; 100; 109; 105; 110; 95].

(* auth/user.rs (UserToken: FromStr, Display) *)
Definition parse_user (s : list nat) := parse_human_readable s user_prefix.
Definition show_user (t : list nat) := display_human_readable t user_prefix.

(* auth/admin.rs (AdminToken: FromStr, Display) *)
Definition parse_admin (s : list nat) := parse_human_readable s admin_prefix.
Definition show_admin (t : list nat) := display_human_readable t admin_prefix.

(* ------------------------------------------------------------------ *)
(* Authentication                                                       *)

(* auth/strategy.rs:33-40 (ClientAuthStrategyInner) *)
Inductive client_auth := CNoAuth | CToken (t : list nat).

(* auth/strategy.rs:116-123 (RoleInner) *)
Inductive role := RClient | RAdmin.

(* auth/strategy.rs:131-145 (Role::is_client, Role::is_admin) *)
Definition is_client (r : role) : bool := match r with RClient => true | RAdmin => true end.
Definition is_admin (r : role) : bool := match r with RAdmin => true | RClient => false end.

(* auth/strategy.rs:147-163 (TokenSet, ServerAuthStrategyInner) *)
Inductive server_auth := SNoAuth | STokens (user admin : list nat).

(* auth/strategy.rs:73-103 (send, async_send): what a client writes before its messages *)
Definition send_header (c : client_auth) : list nat :=
  match c with CNoAuth => [] | CToken t => t end.

(* derived PartialEq of RawToken, token.rs:11 *)
Fixpoint bytes_eqb (a b : list nat) : bool :=
  match a, b with
  | [], [] => true
  | x :: a', y :: b' => Nat.eqb x y && bytes_eqb a' b'
  | _, _ => false
  end.

(* auth/strategy.rs:235-258 (verify_header_help); None = Err(PermissionDenied) *)
Definition verify_header_help (buf user admin : list nat) : option role :=
  if bytes_eqb buf user then Some RClient
  else if bytes_eqb buf admin then Some RAdmin
  else None.

(* net_async/tcp.rs:151-166 (handshake) with auth/strategy.rs:195-233 (verify_header,
   async_verify_header).  [sent] is everything the peer writes before closing; the outcome is
   the role and what the messages are then read from, or None when the connection is dropped:
   not enough bytes (UnexpectedEof) or PermissionDenied. *)
Definition handshake (srv : server_auth) (sent : list nat) : option (role * list nat) :=
  match srv with
  | SNoAuth => Some (RAdmin, sent)
  | STokens u a =>
      if length sent <? TOKEN_LEN then None
      else match verify_header_help (firstn TOKEN_LEN sent) u a with
           | Some r => Some (r, skipn TOKEN_LEN sent)
           | None => None
           end
  end.

(* auth/strategy.rs:18-31 (build_strategies) *)
Definition build_strategies (user admin : list nat) : server_auth * client_auth * client_auth :=
  (STokens user admin, CToken user, CToken admin).

(* ------------------------------------------------------------------ *)
(* Test commands                                                        *)

(* test_command_hash.rs:7-14: what the hasher is given, in order *)
Definition hashed_bytes (command : list nat) (args : list (list nat)) : list nat :=
  fold_left (fun acc arg => acc ++ arg) args command.

(* test_command_hash.rs:7-14 (from_command): blake3 is any function of the bytes *)
Definition from_command (H : list nat -> nat) (command : list nat) (args : list (list nat)) : nat :=
  H (hashed_bytes command args).
