(* Vocabulary for remote persistence. *)
From Verif Require Import Base JsonModel RunStateModel KeysModel PersisterModel.
From Verif Require RunModel.
From Coq Require Import String Ascii.
Local Open Scope string_scope.

(* An executable and its arguments, comma-delimited (abq_cli/src/args.rs:164-181). *)
Fixpoint comma_delimited (words : list string) : string :=
  match words with
  | [] => ""
  | [w] => w
  | w :: words => w ++ "," ++ comma_delimited words
  end.

(* The documented form of a call:
   <executable> <...arguments> <mode> <file-type> <run-id> <local-path> *)
Definition file_type (k : kind) : string :=
  match k with KManifest => "manifest" | KResults => "results" | KRunState => "run_state" end.

Section Contract.
Context {P : Type} (program : string -> list string -> world P -> ran P)
        (put : string -> string -> bytes -> P -> P * bool) (get : string -> string -> P -> P * got).

(* What is kept for every kind of file and run. *)
Definition kept := P -> kind -> string -> option bytes.

(* Only what is kept for this file of this run may differ. *)
Definition others_kept (view : kept) (k : kind) (r : string) (s s' : P) : Prop :=
  forall k' r', (k', r') <> (k, r) -> view s' k' r' = view s k' r'.

(* An executable that does what is documented: "store" keeps the content of the path, "load" writes
   what is kept to the path; both say so by their exit status, and touch nothing else.  It may
   fail whenever it likes, and a "store" that failed may have kept anything. *)
Record does_as_documented (command : string) (arguments : list string) (view : kept) : Prop := {
  on_store : forall k r path w ok s files,
    program command (arguments ++ ["store"; file_type k; r; path])%list w = Exited ok s files ->
    (forall q, files q = w_files w q) /\ others_kept view k r (w_store w) s /\
    (ok = true -> exists b, w_files w path = Some b /\ view s k r = Some b);
  on_load : forall k r path w ok s files,
    program command (arguments ++ ["load"; file_type k; r; path])%list w = Exited ok s files ->
    (forall q, q <> path -> files q = w_files w q) /\ (forall k' r', view s k' r' = view (w_store w) k' r') /\
    (ok = true -> exists b, view (w_store w) k r = Some b /\ files path = Some b) }.

(* Its "load" fails only if nothing is kept. *)
Definition fails_only_if_missing (command : string) (arguments : list string) (view : kept) : Prop :=
  forall k r path w, view (w_store w) k r <> None ->
    exists s files, program command (arguments ++ ["load"; file_type k; r; path])%list w = Exited true s files.

(* A bucket: keys and what is kept under them.  Requests may fail; a failed put may have been done. *)
Record is_a_bucket (bucket : string) (object : P -> string -> option bytes) : Prop := {
  on_put : forall key b s s' ok, put bucket key b s = (s', ok) ->
    (forall key', key' <> key -> object s' key' = object s key') /\ (ok = true -> object s' key = Some b);
  on_get : forall key s s' g, get bucket key s = (s', g) ->
    (forall key', object s' key' = object s key') /\
    match g with Got b => object s key = Some b | NoSuchKey => object s key = None | _ => True end }.

(* The remote place of a persister, and what it keeps. *)
Definition keeps (p : persister) (view : kept) : Prop :=
  match p with
  | PNoop => False
  | PCustom command arguments => does_as_documented command arguments view
  | PS3 bucket prefix => exists object, is_a_bucket bucket object /\
      forall s k r, view s k r = object s (prefix ++ "/" ++ r ++ "/" ++
        match k with KManifest => "manifest.json" | KResults => "results.jsonl" | KRunState => "run_state.json" end)
  end.
Definition reliable (p : persister) (view : kept) : Prop :=
  match p with PCustom command arguments => fails_only_if_missing command arguments view | _ => True end.
End Contract.

(* The operation stores this file of this run. *)
Definition stores {E M H} (k : kind) (r : string) (o : op E M H) : Prop :=
  match o with
  | OStoreFile k' r' _ => k' = k /\ r' = r
  | OStoreState r' _ _ => KRunState = k /\ r' = r
  | _ => False
  end.

(* What the queue is told about a run that it does not know itself (queue.rs:524-556). *)
Definition told {E M H S} (c : run_state E M H -> RunModel.saved_state S) (l : @loaded E M H) : RunModel.remote_answer S :=
  match l with
  | Found s => RunModel.RemoteFound (c s)
  | NotFound => RunModel.RemoteNotFound
  | Incompatible _ _ => RunModel.RemoteIncompatible
  | LoadError => RunModel.RemoteError
  end.

(* An executable for the examples: it keeps what it is given, under the words it is called with, and
   fails as a script says. *)
Definition ex_state : Type := (string -> string -> option bytes) * list bool.
Definition ex_program (command : string) (args : list string) (w : world ex_state) : ran ex_state :=
  let '(kept, script) := w_store w in
  match args with
  | [mode; type; r; path] =>
      match script with
      | false :: script => Exited false (kept, script) (w_files w)
      | _ =>
          let script := tl script in
          if String.eqb mode "store" then
            match w_files w path with
            | None => Exited false (kept, script) (w_files w)
            | Some b => Exited true (fun t q => if String.eqb t type && String.eqb q r then Some b else kept t q, script) (w_files w)
            end
          else
            match kept type r with
            | None => Exited false (kept, script) (w_files w)
            | Some b => Exited true (kept, script) (fun q => if String.eqb q path then Some b else w_files w q)
            end
      end
  | _ => NotSpawned
  end.
Definition ex_steady (command : string) (args : list string) (w : world ex_state) : ran ex_state :=
  ex_program command args {| w_store := (fst (w_store w), []); w_files := w_files w |}.
Definition ex_view (s : ex_state) (k : kind) (r : string) : option bytes := fst s (file_type k) r.

(* And a bucket. *)
Definition ex_put (bucket key : string) (b : bytes) (s : string -> option bytes) : (string -> option bytes) * bool :=
  (fun k => if String.eqb k key then Some b else s k, true).
Definition ex_get (bucket key : string) (s : string -> option bytes) : (string -> option bytes) * got :=
  (s, match s key with Some b => Got b | None => NoSuchKey end).
