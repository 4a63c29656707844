(* Model of the stored run state: crates/abq_queue/src/persistence/run_state.rs:17-111.
   The texts are those of JsonModel.  Entities, the metadata map and the command hash
   have parameters as their serialisations.
   Simplifications: a field given twice is an error in both parsers (serde's derived
   visitors); unknown fields are ignored, as serde does by default. *)
From Verif Require Import Base JsonModel JsonlModel.
From Coq Require Import Decimal DecimalN DecimalFacts NArith String.
Local Open Scope N_scope.

(* run_state.rs:17 *)
Definition current_schema_version : N := 1.

(* run_state.rs:26-34.  The exit code is an i32; only its text matters. *)
Record run_state (E M H : Type) := {
  rs_exit_code : Z; rs_metadata : M; rs_workers : list E; rs_hash : option H }.
Arguments rs_exit_code {E M H}. Arguments rs_metadata {E M H}. Arguments rs_workers {E M H}. Arguments rs_hash {E M H}.

(* ---- decimal texts of integers (itoa and serde_json's number parser) ---- *)

Fixpoint uint_text (u : uint) : bytes :=
  match u with
  | Nil => []
  | D0 u => 48%nat :: uint_text u | D1 u => 49%nat :: uint_text u | D2 u => 50%nat :: uint_text u
  | D3 u => 51%nat :: uint_text u | D4 u => 52%nat :: uint_text u | D5 u => 53%nat :: uint_text u
  | D6 u => 54%nat :: uint_text u | D7 u => 55%nat :: uint_text u | D8 u => 56%nat :: uint_text u
  | D9 u => 57%nat :: uint_text u
  end.
Fixpoint text_uint (b : bytes) : option uint :=
  match b with
  | [] => Some Nil
  | c :: b' =>
      match text_uint b' with
      | None => None
      | Some u =>
          match c with
          | 48%nat => Some (D0 u) | 49%nat => Some (D1 u) | 50%nat => Some (D2 u) | 51%nat => Some (D3 u) | 52%nat => Some (D4 u)
          | 53%nat => Some (D5 u) | 54%nat => Some (D6 u) | 55%nat => Some (D7 u) | 56%nat => Some (D8 u) | 57%nat => Some (D9 u)
          | _ => None
          end
      end
  end.
Definition nat_text (n : N) : bytes := uint_text (N.to_uint n).
Definition z_text (z : Z) : bytes :=
  match z with Z.neg p => 45%nat :: nat_text (N.pos p) | _ => nat_text (Z.to_N z) end.
(* None: not an integer.  A fraction or exponent is a type error for an integer field. *)
Definition text_nat (b : bytes) : option N :=
  match b with [] => None | _ => option_map N.of_uint (text_uint b) end.
Definition text_z (b : bytes) : option Z :=
  match b with
  | 45%nat :: b' => option_map (fun n => Z.opp (Z.of_N n)) (text_nat b')
  | _ => option_map Z.of_N (text_nat b)
  end.

(* Fields of an object: exactly one value of that name. *)
Inductive field := FMissing | FOne (j : json) | FTwice.
Definition bytes_eqb (a b : bytes) : bool := if list_eq_dec Nat.eq_dec a b then true else false.
Definition field_of (name : string) (ms : list (bytes * json)) : field :=
  match filter (fun kv => bytes_eqb (fst kv) (text name)) ms with
  | [] => FMissing
  | [kv] => FOne (snd kv)
  | _ => FTwice
  end.

Definition dec_u32 (j : json) : option N :=
  match j with
  | JNum t => match text_nat t with Some n => if N.ltb n (2 ^ 32) then Some n else None | None => None end
  | _ => None
  end.
Definition dec_i32 (j : json) : option Z :=
  match j with
  | JNum t => match text_z t with
              | Some z => if Z.leb (- 2 ^ 31) z && Z.ltb z (2 ^ 31) then Some z else None
              | None => None end
  | _ => None
  end.

Inductive parse_error := IncompatibleSchemaVersion (found expected : N) | OtherError.

Section Codec.
Context {E M H : Type} (enc_e : E -> json) (dec_e : json -> option E) (enc_m : M -> json) (dec_m : json -> option M)
        (enc_h : H -> json) (dec_h : json -> option H).

(* run_state.rs:48-55, 71-79: the version of a state that is stored, and the state,
   flattened into one object *)
Definition serialized (version : N) (s : run_state E M H) : json :=
  JObj ([(text "schema_version", JNum (nat_text version));
         (text "new_worker_exit_code", JNum (z_text (rs_exit_code s)));
         (text "init_metadata", enc_m (rs_metadata s));
         (text "seen_workers", JArr (map enc_e (rs_workers s)))] ++
        match rs_hash s with Some h => [(text "test_command_hash", enc_h h)] | None => [] end).

(* run_state.rs:72-79, 103-111 *)
Definition serialize (s : run_state E M H) : bytes := write (serialized current_schema_version s).

(* The derived Deserialize of SchemaVersion (run_state.rs:21-24). *)
Definition parse_version (j : json) : option N :=
  match j with
  | JObj ms => match field_of "schema_version" ms with FOne v => dec_u32 v | _ => None end
  | _ => None
  end.

Definition parse_workers (j : json) : option (list E) :=
  match j with JArr l => all_some dec_e l | _ => None end.

(* The derived Deserialize of SerializedRunStateInner (run_state.rs:48-55). *)
Definition parse_inner (j : json) : option (N * run_state E M H) :=
  match j with
  | JObj ms =>
      match parse_version j, field_of "new_worker_exit_code" ms, field_of "init_metadata" ms, field_of "seen_workers" ms with
      | Some v, FOne c, FOne m, FOne w =>
          match dec_i32 c, dec_m m, parse_workers w with
          | Some c, Some m, Some w =>
              let mk h := Some (v, {| rs_exit_code := c; rs_metadata := m; rs_workers := w; rs_hash := h |}) in
              match field_of "test_command_hash" ms with
              | FMissing => mk None
              | FOne JNull => mk None
              | FOne h => match dec_h h with Some h => mk (Some h) | None => None end
              | FTwice => None
              end
          | _, _, _ => None
          end
      | _, _, _, _ => None
      end
  | _ => None
  end.

(* run_state.rs:85-101 *)
Definition deserialize (b : bytes) : run_state E M H + parse_error :=
  match (match read_json b with Some j => parse_inner j | None => None end) with
  | Some (_, s) => inl s
  | None =>
      match (match read_json b with Some j => parse_version j | None => None end) with
      | None => inr OtherError
      | Some v => if N.eqb v current_schema_version then inr OtherError
                  else inr (IncompatibleSchemaVersion v current_schema_version)
      end
  end.

(* remote/s3.rs:158-183 (try_load_run_state): what the store answered. *)
Inductive get_result := GetOk (b : bytes) | GetNoSuchKey | GetError.
Inductive loaded := Found (s : run_state E M H) | NotFound | Incompatible (found expected : N) | LoadError.
Definition s3_try_load (g : get_result) : loaded :=
  match g with
  | GetNoSuchKey => NotFound
  | GetError => LoadError
  | GetOk b => match deserialize b with
               | inl s => Found s
               | inr (IncompatibleSchemaVersion f e) => Incompatible f e
               | inr OtherError => LoadError
               end
  end.
End Codec.
