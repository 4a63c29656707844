(* Model of `abq login` and of the access token that later commands take from its file:
   crates/abq_cli/src/abq_config.rs, crates/abq_cli/src/main.rs:260-293, 408-413, 536-541, 766-778,
   crates/abq_hosted/src/access_token.rs.

   Any number of logins run, each a process of its own, and commands that use a token; what they do
   with the file system is interleaved as the events say.  A process that is killed does nothing more.

   Parameters: [toml], toml::to_string of the configuration with a token; [untoml], toml::from_str.
   Simplifications: the conventional path is one path for all (the home directory does not change) and
   relative paths are relative to one directory; a path is its text; the machine does not crash (what
   was written is in the file). *)
From Verif Require Import Base.
From Coq Require Import NArith.
Local Open Scope list_scope.

(* Unicode scalar values *)
Definition token := list N.
Definition text := list nat.
Definition path := list nat.

(* char::is_whitespace, for str::trim at main.rs:276 *)
Definition white (c : N) : bool :=
  ((9 <=? c) && (c <=? 13) || (c =? 32) || (c =? 133) || (c =? 160) || (c =? 5760) || (8192 <=? c) && (c <=? 8202) ||
   (c =? 8232) || (c =? 8233) || (c =? 8239) || (c =? 8287) || (c =? 12288))%N.
Fixpoint trim_start (l : token) : token := match l with c :: l' => if white c then trim_start l' else l | [] => [] end.
Definition trim (l : token) : token := rev (trim_start (rev (trim_start l))).

(* main.rs:766-778 with abq_config.rs:22-38: the variable ABQ_CONFIG_FILE; a value that is not
   Unicode counts as none *)
Definition config_path (conventional : path) (env : option path) : option path :=
  match env with
  | Some [] => None
  | Some p => Some p
  | None => Some conventional
  end.

(* the argument --access-token, what a line of input would be, and ABQ_CONFIG_FILE *)
Record login := { lg_argument : option token; lg_input : token; lg_env : option path }.
(* main.rs:262-279; access_token.rs:27-29 refuses nothing *)
Definition login_token (l : login) : token := match lg_argument l with Some t => t | None => trim (lg_input l) end.

Section Login.
Context (toml : token -> text) (untoml : text -> option token) (conventional : path).

Definition files := path -> option text.
Definition path_dec : forall a b : path, {a = b} + {a <> b} := list_eq_dec Nat.eq_dec.
Definition set_file (f : files) (p : path) (b : text) : files := fun q => if path_dec q p then Some b else f q.

(* A login: before opening its file, writing to it at an offset, and ended. *)
Inductive phase := Opening (p : path) | Writing (p : path) (rest : text) (offset : nat) | Ended (success : bool).

(* What happens, as it can be seen from outside. *)
Inductive effect :=
| Truncated (k : nat) (p : path)
| Wrote (k : nat) (n : nat)
| Exited (k : nat) (success : bool)
| Used (t : option token).

Record state := { st_files : files; st_logins : list (nat * (login * phase)); st_log : list effect }.

Inductive event :=
| Start (k : nat) (l : login)
| Open (k : nat) (ok : bool)            (* create_dir_all and File::create; if not ok nothing is truncated *)
| Write (k : nat) (n : nat)             (* a write(2) of [n] bytes of the rest *)
| WriteError (k : nat)
| Use (argument : option token) (env : option path) (ok : bool). (* a command that needs a token; whether the file can be read *)

Fixpoint find_login (k : nat) (l : list (nat * (login * phase))) : option (login * phase) :=
  match l with [] => None | (k', x) :: l' => if Nat.eqb k k' then Some x else find_login k l' end.
Fixpoint set_phase (k : nat) (ph : phase) (l : list (nat * (login * phase))) : list (nat * (login * phase)) :=
  match l with [] => [] | (k', (lg, x)) :: l' => if Nat.eqb k k' then (k', (lg, ph)) :: l' else (k', (lg, x)) :: set_phase k ph l' end.

(* pwrite(2) *)
Definition overwrite (b : text) (offset : nat) (chunk : text) : text :=
  firstn offset b ++ repeat 0 (offset - length b) ++ chunk ++ skipn (offset + length chunk) b.

(* abq_config.rs:54-58 *)
Definition read_config (f : files) (env : option path) (ok : bool) : option token :=
  match config_path conventional env with
  | None => None
  | Some p => if ok then match f p with Some b => untoml b | None => None end else None
  end.
(* main.rs:408-411, 536-539 *)
Definition token_used (f : files) (argument : option token) (env : option path) (ok : bool) : option token :=
  match argument with Some t => Some t | None => read_config f env ok end.

Definition end_login (s : state) (k : nat) (success : bool) : state :=
  {| st_files := st_files s; st_logins := set_phase k (Ended success) (st_logins s); st_log := st_log s ++ [Exited k success] |}.

Definition step (s : state) (e : event) : state :=
  match e with
  | Start k l =>
      match find_login k (st_logins s) with
      | Some _ => s
      | None =>
          (* main.rs:281-293 *)
          match config_path conventional (lg_env l) with
          | Some p => {| st_files := st_files s; st_logins := st_logins s ++ [(k, (l, Opening p))]; st_log := st_log s |}
          | None => {| st_files := st_files s; st_logins := st_logins s ++ [(k, (l, Ended false))]; st_log := st_log s ++ [Exited k false] |}
          end
      end
  | Open k ok =>
      match find_login k (st_logins s) with
      | Some (l, Opening p) =>
          (* abq_config.rs:44-50: fs::write truncates and then writes all *)
          if ok then {| st_files := set_file (st_files s) p []; st_logins := set_phase k (Writing p (toml (login_token l)) 0) (st_logins s);
                        st_log := st_log s ++ [Truncated k p] |}
          else end_login s k false
      | _ => s
      end
  | Write k n =>
      match find_login k (st_logins s) with
      | Some (_, Writing p rest offset) =>
          let chunk := firstn n rest in
          let rest' := skipn n rest in
          match st_files s p with
          | None => s
          | Some b =>
              let s' := {| st_files := set_file (st_files s) p (overwrite b offset chunk);
                           st_logins := set_phase k (Writing p rest' (offset + length chunk)) (st_logins s);
                           st_log := st_log s ++ [Wrote k (length chunk)] |} in
              match rest' with
              | [] => end_login s' k true
              | _ :: _ => s'
              end
          end
      | _ => s
      end
  | WriteError k =>
      match find_login k (st_logins s) with
      | Some (_, Writing _ _ _) => end_login s k false
      | _ => s
      end
  | Use argument env ok =>
      {| st_files := st_files s; st_logins := st_logins s; st_log := st_log s ++ [Used (token_used (st_files s) argument env ok)] |}
  end.

Definition start (f : files) : state := {| st_files := f; st_logins := []; st_log := [] |}.
Definition after (f : files) (es : list event) : state := run step (start f) es.
End Login.
