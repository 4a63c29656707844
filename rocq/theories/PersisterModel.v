(* Model of where a queue keeps things remotely:
   crates/abq_cli/src/instance/remote_persistence.rs (the configuration),
   crates/abq_cli/src/instance/local_persistence.rs:52-71 (the local directories),
   crates/abq_queue/src/persistence/remote/custom.rs:34-185, s3.rs:91-183 and noop.rs.
   The executable of the custom strategy and the S3 service are parameters: functions of their
   own state, so that they may fail whenever they like.  Texts of errors are not modelled. *)
From Verif Require Import Base JsonModel RunStateModel KeysModel.
From Coq Require Import String Ascii.
Local Open Scope string_scope.

(* ---- the configuration ---- *)

(* remote_persistence.rs:20-24 *)
Inductive strategy := SS3 | SCustom.

(* remote_persistence.rs:26-33 *)
Definition strategy_text (s : strategy) : string := match s with SS3 => "s3" | SCustom => "custom" end.

(* remote_persistence.rs:35-45; None: unknown strategy *)
Definition strategy_of (s : string) : option strategy :=
  if String.eqb s "s3" then Some SS3 else if String.eqb s "custom" then Some SCustom else None.

(* remote_persistence.rs:47-52 *)
Record config := { c_strategy : option strategy; c_command : option string;
                   c_bucket : option string; c_prefix : option string }.

(* noop.rs:14-15, s3.rs:47-52, custom.rs:34-38 *)
Inductive persister := PNoop | PS3 (bucket prefix : string) | PCustom (command : string) (head : list string).

(* remote_persistence.rs:104-108, 116-122: the queue does not start; or a panic *)
Inductive refusal := NoS3Here | MissingArgument (variable : string) (s : strategy) | Panicked.

(* str::split with a character: what is before the first one, and so on; never empty *)
Fixpoint split_on (c : ascii) (s : string) : list string :=
  match s with
  | EmptyString => [""]
  | String d s' =>
      if Ascii.eqb d c then "" :: split_on c s'
      else match split_on c s' with
           | [] => [String d ""]
           | x :: l => String d x :: l
           end
  end.

(* remote_persistence.rs:149-163; Vec::remove(0) of an empty vector panics *)
Definition build_custom (command : option string) : persister + refusal :=
  match command with
  | None => inr (MissingArgument "ABQ_REMOTE_PERSISTENCE_COMMAND" SCustom)
  | Some command =>
      match split_on "," command with
      | [] => inr Panicked
      | command :: args => inl (PCustom command args)
      end
  end.

(* remote_persistence.rs:124-147 *)
Definition build_s3 (bucket prefix : option string) : persister + refusal :=
  match bucket with
  | None => inr (MissingArgument "ABQ_REMOTE_PERSISTENCE_S3_BUCKET" SS3)
  | Some bucket =>
      match prefix with
      | None => inr (MissingArgument "ABQ_REMOTE_PERSISTENCE_S3_KEY_PREFIX" SS3)
      | Some prefix => inl (PS3 bucket prefix)
      end
  end.

(* remote_persistence.rs:77-113; s3: whether the feature is compiled in *)
Definition resolve (s3 : bool) (c : config) : persister + refusal :=
  match c_strategy c with
  | None => inl PNoop
  | Some SS3 => if s3 then build_s3 (c_bucket c) (c_prefix c) else inr NoS3Here
  | Some SCustom => build_custom (c_command c)
  end.

(* local_persistence.rs:57-70: a configured directory, or a temporary one (None: none could be made) *)
Definition local_dir (configured : option string) (temp : option string) : option string :=
  match configured with Some d => Some d | None => temp end.

(* ---- the persisters ---- *)

(* custom.rs:40-44, 67-70 *)
Inductive action := ALoad | AStore.
Definition action_text (a : action) : string := match a with ALoad => "load" | AStore => "store" end.

(* NamedTempFile::new and what is written to it: not possible, or a file at this path *)
Inductive temp := TempFails | TempAt (path : string).

Section World.
Context {P : Type}.

(* What is outside: the state of the executable or service, and the local files. *)
Record world := { w_store : P; w_files : string -> option bytes }.

Definition put_file (w : world) (path : string) (b : option bytes) : world :=
  {| w_store := w_store w; w_files := fun q => if String.eqb q path then b else w_files w q |}.

(* tokio's Command::output, custom.rs:79-85: no process could be started; or it ended, and whether
   with status 0, leaving the store and the files in this state *)
Inductive ran := NotSpawned | Exited (ok : bool) (s : P) (files : string -> option bytes).

(* s3.rs:82-89 with the body of 133-140, 172: a body may break off *)
Inductive got := Got (b : bytes) | GotPart (b : bytes) | NoSuchKey | GetFailed.

Context (program : string -> list string -> world -> ran)
        (put : string -> string -> bytes -> P -> P * bool)
        (get : string -> string -> P -> P * got).

(* custom.rs:58-94 *)
Definition call (command : string) (head : list string) (a : action) (k : kind) (r path : string) (w : world) : world * bool :=
  match program command (head ++ [action_text a; kind_str k; r; path]) w with
  | NotSpawned => (w, false)
  | Exited ok s files => ({| w_store := s; w_files := files |}, ok)
  end.

(* s3.rs:109-123, custom.rs:109-117, noop.rs:25-32 *)
Definition store_from_disk (p : persister) (k : kind) (r path : string) (w : world) : world * bool :=
  match p with
  | PNoop => (w, true)
  | PCustom command head => call command head AStore k r path w
  | PS3 bucket prefix =>
      match w_files w path with
      | None => (w, false)
      | Some b => let '(s, ok) := put bucket (build_key prefix k r) b (w_store w) in
                  ({| w_store := s; w_files := w_files w |}, ok)
      end
  end.

(* s3.rs:125-143, custom.rs:99-107, noop.rs:34-41.  File::create is taken to succeed. *)
Definition load_to_disk (p : persister) (k : kind) (r path : string) (w : world) : world * bool :=
  match p with
  | PNoop => (w, false)
  | PCustom command head => call command head ALoad k r path w
  | PS3 bucket prefix =>
      let '(s, g) := get bucket (build_key prefix k r) (w_store w) in
      let w := {| w_store := s; w_files := w_files w |} in
      match g with
      | Got b => (put_file w path (Some b), true)
      | GotPart b => (put_file w path (Some b), false)
      | NoSuchKey | GetFailed => (w, false)
      end
  end.

Context {E M H : Type} (enc_e : E -> json) (dec_e : json -> option E) (enc_m : M -> json) (dec_m : json -> option M)
        (enc_h : H -> json) (dec_h : json -> option H).
Notation run_state := (run_state E M H).

(* A NamedTempFile: its path names no file before; it is removed when dropped. *)
Definition with_temp {A} (t : temp) (w : world) (fail : A) (f : string -> world -> world * A) : world * A :=
  match t with
  | TempFails => (w, fail)
  | TempAt path =>
      match w_files w path with
      | Some _ => (w, fail)               (* not a path that is handed out *)
      | None => let '(w, a) := f path (put_file w path (Some [])) in (put_file w path None, a)
      end
  end.

(* s3.rs:145-156, custom.rs:119-144, noop.rs:43-49 *)
Definition store_run_state (p : persister) (r : string) (s : run_state) (t : temp) (w : world) : world * bool :=
  let b := serialize enc_e enc_m enc_h s in
  match p with
  | PNoop => (w, true)
  | PCustom command head =>
      with_temp t w false (fun path w => call command head AStore KRunState r path (put_file w path (Some b)))
  | PS3 bucket prefix =>
      let '(st, ok) := put bucket (build_key prefix KRunState r) b (w_store w) in
      ({| w_store := st; w_files := w_files w |}, ok)
  end.

(* s3.rs:158-183, custom.rs:146-180, noop.rs:51-53.  reopens: whether the temporary file could be
   opened again and read; it cannot if the executable put another file in its place. *)
Definition interpret (b : bytes) : loaded :=
  match deserialize dec_e dec_m dec_h b with
  | inl s => Found s
  | inr (IncompatibleSchemaVersion f e) => Incompatible f e
  | inr OtherError => LoadError
  end.
Definition try_load_run_state (p : persister) (r : string) (t : temp) (reopens : bool) (w : world) : world * loaded :=
  match p with
  | PNoop => (w, NotFound)
  | PCustom command head =>
      with_temp t w LoadError (fun path w =>
        let '(w, ok) := call command head ALoad KRunState r path w in
        (w, if ok then
              match (if reopens then w_files w path else None) with
              | Some b => interpret b
              | None => LoadError
              end
            else NotFound))
  | PS3 bucket prefix =>
      let '(s, g) := get bucket (build_key prefix KRunState r) (w_store w) in
      ({| w_store := s; w_files := w_files w |},
       s3_try_load dec_e dec_m dec_h
         (match g with Got b => GetOk b | GotPart _ | GetFailed => GetError | NoSuchKey => GetNoSuchKey end))
  end.

(* What a queue does with its persister (remote.rs:121-160), between which it writes its own files. *)
Inductive op :=
| OStoreFile (k : kind) (r path : string)
| OLoadFile (k : kind) (r path : string)
| OStoreState (r : string) (s : run_state) (t : temp)
| OLoadState (r : string) (t : temp) (reopens : bool)
| OLocal (path : string) (b : option bytes).
Inductive answer := Stored (ok : bool) | LoadedFile (ok : bool) | State (l : @loaded E M H) | Done.

Definition do_op (p : persister) (w : world) (o : op) : world * answer :=
  match o with
  | OStoreFile k r path => let '(w, ok) := store_from_disk p k r path w in (w, Stored ok)
  | OLoadFile k r path => let '(w, ok) := load_to_disk p k r path w in (w, LoadedFile ok)
  | OStoreState r s t => let '(w, ok) := store_run_state p r s t w in (w, Stored ok)
  | OLoadState r t reopens => let '(w, l) := try_load_run_state p r t reopens w in (w, State l)
  | OLocal path b => (put_file w path b, Done)
  end.
Definition do_ops (p : persister) (w : world) (os : list op) : world := fold_left (fun w o => fst (do_op p w o)) os w.
Definition ops_answers (p : persister) : world -> list op -> list answer :=
  fix go w os := match os with [] => [] | o :: os => let '(w, a) := do_op p w o in a :: go w os end.
End World.
Arguments world : clear implicits. Arguments ran : clear implicits. Arguments op : clear implicits. Arguments answer : clear implicits.
