(* Model of the names under which things are stored:
   crates/abq_queue/src/persistence/remote/s3.rs:91-103 (build_key),
   crates/abq_queue/src/persistence/remote.rs:37-60 (PersistenceKind),
   crates/abq_queue/src/persistence/results/fs.rs:75-98,
   crates/abq_queue/src/persistence/manifest/fs.rs:53-76 (get_path, run_id_of_path). *)
From Verif Require Import Base.
From Coq Require Import String Ascii.
Local Open Scope string_scope.

(* remote.rs:37-42 *)
Inductive kind := KManifest | KResults | KRunState.

(* remote.rs:45-51 *)
Definition kind_str (k : kind) : string :=
  match k with KManifest => "manifest" | KResults => "results" | KRunState => "run_state" end.
(* remote.rs:53-59 *)
Definition file_extension (k : kind) : string :=
  match k with KManifest => "json" | KResults => "jsonl" | KRunState => "json" end.

(* s3.rs:97-102 *)
Definition build_key (prefix : string) (k : kind) (run_id : string) : string :=
  prefix ++ "/" ++ run_id ++ "/" ++ kind_str k ++ "." ++ file_extension k.

(* Path::join: an absolute path replaces the root. *)
Definition starts_with_slash (s : string) : bool :=
  match s with String c _ => Ascii.eqb c "/" | EmptyString => false end.
Definition join (root name : string) : string :=
  if starts_with_slash name then name else root ++ "/" ++ name.

(* results/fs.rs:75-79, manifest/fs.rs:53-57 *)
Inductive local_kind := LResults | LManifest.
Definition suffix (k : local_kind) : string :=
  match k with LResults => ".results.jsonl" | LManifest => ".manifest.json" end.
Definition get_path (k : local_kind) (root run_id : string) : string := join root (run_id ++ suffix k).

(* Path::file_name: the part after the last slash.  (The components ".." and "."
   are not treated specially, as names here end with a suffix.) *)
Fixpoint file_name_from (cur p : string) : string :=
  match p with
  | EmptyString => cur
  | String c p' => if Ascii.eqb c "/" then file_name_from "" p' else file_name_from (cur ++ String c "") p'
  end.
Definition file_name (p : string) : string := file_name_from "" p.

(* str::strip_suffix *)
Fixpoint strip_suffix (suf s : string) : option string :=
  if String.eqb s suf then Some ""
  else match s with
       | EmptyString => None
       | String c s' => option_map (String c) (strip_suffix suf s')
       end.

(* results/fs.rs:81-98, manifest/fs.rs:59-76; None is an error *)
Definition run_id_of_path (k : local_kind) (p : string) : option string := strip_suffix (suffix k) (file_name p).
