(* Model of the derived JSON forms (serde) of test results, from the messages of a native test runner
   (protocol 0.2) to the lines of the results file:
   crates/abq_utils/src/net_protocol/runners/v0_2.rs:139-357 (results of a runner),
   crates/abq_utils/src/net_protocol/runners.rs:34-39, 552-556, 584-612, 631-657, 709-738, 770-829, 863-895, 991-995
   (the same for the rest of ABQ), crates/abq_utils/src/net_protocol.rs:57-75, 93-94, 123-130, 158-165,
   187-191, 250-257, 291, 562-571, 590-594, 626-630, 656-684, 734-747,
   crates/abq_utils/src/time.rs:4-6, and what a worker makes of a runner's messages,
   crates/abq_runners/generic_test_runner/src/lib.rs:1165-1272.  Texts are those of JsonModel.

   Simplifications: an f64 is its text (it is only a number of milliseconds of a failed runner); of the
   shapes that serde also reads, but never writes, a struct as an array and a variant without fields
   as an object are left out; a member that is not known is parsed like the others (serde skips it without a
   limit on depth, unless the message is buffered first, as a runner's are); the clock stands still while the attempts of one result are converted. *)
From Verif Require Import Base JsonModel JsonProofs JsonlModel RunStateModel.
From Coq Require Import String.

(* ---- codecs: how the values of a Rust type are written and read; [c_ok] are the values that the
   type has ---- *)

Record codec (A : Type) := { c_enc : A -> json; c_dec : json -> option A; c_ok : A -> Prop }.
Arguments c_enc {A}. Arguments c_dec {A}. Arguments c_ok {A}.

Definition c_str : codec bytes :=
  {| c_enc := JStr; c_dec := fun j => match j with JStr s => Some s | _ => None end; c_ok := fun _ => True |}.
Definition c_bool : codec bool :=
  {| c_enc := JBool; c_dec := fun j => match j with JBool b => Some b | _ => None end; c_ok := fun _ => True |}.
Definition c_uint (bound : N) : codec N :=
  {| c_enc := fun n => JNum (nat_text n);
     c_dec := fun j => match j with
                       | JNum t => match text_nat t with Some n => if N.ltb n bound then Some n else None | None => None end
                       | _ => None
                       end;
     c_ok := fun n => (n < bound)%N |}.
Definition u8 := c_uint (2 ^ 8).
Definition u32 := c_uint (2 ^ 32).
Definition u64 := c_uint (2 ^ 64).
Definition u128 := c_uint (2 ^ 128).
Definition f64 : codec bytes :=
  {| c_enc := JNum; c_dec := fun j => match j with JNum t => Some t | _ => None end; c_ok := num_ok |}.

Fixpoint seq_opt {A} (l : list (option A)) : option (list A) :=
  match l with
  | [] => Some []
  | Some x :: l' => match seq_opt l' with Some xs => Some (x :: xs) | None => None end
  | None :: _ => None
  end.

(* Vec<T> *)
Definition c_vec {A} (c : codec A) : codec (list A) :=
  {| c_enc := fun l => JArr (map (c_enc c) l);
     c_dec := fun j => match j with JArr l => seq_opt (map (c_dec c) l) | _ => None end;
     c_ok := Forall (c_ok c) |}.
(* [T; n] *)
Definition c_array {A} (n : nat) (c : codec A) : codec (list A) :=
  {| c_enc := c_enc (c_vec c);
     c_dec := fun j => match c_dec (c_vec c) j with
                       | Some l => if Nat.eqb (List.length l) n then Some l else None
                       | None => None
                       end;
     c_ok := fun l => c_ok (c_vec c) l /\ List.length l = n |}.
(* a struct of two unnamed fields, or a variant with two *)
Definition c_pair {A B} (a : codec A) (b : codec B) : codec (A * B) :=
  {| c_enc := fun x => JArr [c_enc a (fst x); c_enc b (snd x)];
     c_dec := fun j => match j with
                       | JArr [x; y] => match c_dec a x, c_dec b y with Some x', Some y' => Some (x', y') | _, _ => None end
                       | _ => None
                       end;
     c_ok := fun x => c_ok a (fst x) /\ c_ok b (snd x) |}.

(* serde_json::Map<String, Value> (a BTreeMap: keys in order, the last of equal keys stays). *)
Fixpoint bytes_ltb (a b : bytes) : bool :=
  match a, b with
  | [], [] => false
  | [], _ :: _ => true
  | _ :: _, [] => false
  | x :: a', y :: b' => Nat.ltb x y || (Nat.eqb x y && bytes_ltb a' b')
  end.
Fixpoint insert_key (k : bytes) (v : json) (l : list (bytes * json)) : list (bytes * json) :=
  match l with
  | [] => [(k, v)]
  | (k', v') :: l' =>
      if bytes_ltb k k' then (k, v) :: l
      else if bytes_ltb k' k then (k', v') :: insert_key k v l'
      else (k, v) :: l'
  end.
Fixpoint canon (j : json) : json :=
  match j with
  | JArr l => JArr (map canon l)
  | JObj l => JObj (fold_left (fun m kv => insert_key (fst kv) (snd kv) m) (map (fun '(k, v) => (k, canon v)) l) [])
  | _ => j
  end.
Definition metadata := list (bytes * json).
Definition c_meta : codec metadata :=
  {| c_enc := JObj;
     c_dec := fun j => match canon j with JObj l => Some l | _ => None end;
     c_ok := fun m => json_ok (JObj m) /\ canon (JObj m) = JObj m |}.

(* ---- structs with named fields ---- *)

Definition slot := (string * option json)%type.
(* the members written: a slot without a value is skipped *)
Definition members (l : list slot) : list (bytes * json) :=
  flat_map (fun s => match snd s with Some j => [(text (fst s), j)] | None => [] end) l.
Definition obj (l : list slot) : json := JObj (members l).

(* What is found under a name; serde's visitors refuse a field given twice and ignore unknown ones. *)
Inductive found (A : Type) := Missing | One (a : A) | Twice.
Arguments Missing {A}. Arguments One {A}. Arguments Twice {A}.
Definition find_field {A} (name : string) (ms : list (bytes * A)) : found A :=
  match filter (fun kv => bytes_eqb (fst kv) (text name)) ms with
  | [] => Missing
  | [kv] => One (snd kv)
  | _ => Twice
  end.

(* A part of a struct: some of its fields. *)
Record part (A : Type) := { p_names : list string; p_slots : A -> list slot;
                            p_dec : list (bytes * json) -> option A; p_ok : A -> Prop }.
Arguments p_names {A}. Arguments p_slots {A}. Arguments p_dec {A}. Arguments p_ok {A}.

Definition req {A} (name : string) (c : codec A) : part A :=
  {| p_names := [name]; p_slots := fun a => [(name, Some (c_enc c a))];
     p_dec := fun ms => match find_field name ms with One j => c_dec c j | _ => None end; p_ok := c_ok c |}.
Definition read_opt {A} (name : string) (c : codec A) (ms : list (bytes * json)) : option (option A) :=
  match find_field name ms with
  | Missing => Some None
  | One JNull => Some None
  | One j => option_map Some (c_dec c j)
  | Twice => None
  end.
Definition if_some {A} (P : A -> Prop) (o : option A) : Prop := match o with Some a => P a | None => True end.
(* Option<T> with skip_serializing_if = Option::is_none *)
Definition opt {A} (name : string) (c : codec A) : part (option A) :=
  {| p_names := [name]; p_slots := fun a => [(name, option_map (c_enc c) a)];
     p_dec := read_opt name c; p_ok := if_some (c_ok c) |}.
(* Option<T> without it: None is written as null *)
Definition nullable {A} (name : string) (c : codec A) : part (option A) :=
  {| p_names := [name]; p_slots := fun a => [(name, Some (match a with Some x => c_enc c x | None => JNull end))];
     p_dec := read_opt name c; p_ok := if_some (c_ok c) |}.
Definition both_parts {A B} (a : part A) (b : part B) : part (A * B) :=
  {| p_names := p_names a ++ p_names b; p_slots := fun x => p_slots a (fst x) ++ p_slots b (snd x);
     p_dec := fun ms => match p_dec a ms, p_dec b ms with Some x, Some y => Some (x, y) | _, _ => None end;
     p_ok := fun x => p_ok a (fst x) /\ p_ok b (snd x) |}.
Infix "+++" := both_parts (at level 61, right associativity).
(* the fields as a record *)
Definition as_record {A B} (of : A -> B) (to : B -> A) (p : part A) : part B :=
  {| p_names := p_names p; p_slots := fun b => p_slots p (to b);
     p_dec := fun ms => option_map of (p_dec p ms); p_ok := fun b => p_ok p (to b) |}.
Definition c_struct {A} (p : part A) : codec A :=
  {| c_enc := fun a => obj (p_slots p a);
     c_dec := fun j => match j with JObj ms => p_dec p ms | _ => None end; c_ok := p_ok p |}.
(* #[serde(tag = "type", rename = name)] on a struct: the tag is written and not looked at. *)
Definition c_tagged {A} (name : string) (p : part A) : codec A :=
  {| c_enc := fun a => obj (("type"%string, Some (JStr (text name))) :: p_slots p a);
     c_dec := fun j => match j with JObj ms => p_dec p ms | _ => None end; c_ok := p_ok p |}.

(* ---- results, as a native runner tells them (v0_2.rs) ---- *)

(* v0_2.rs:272-277 *)
Record location := { l_file : bytes; l_line : option N; l_column : option N }.
Definition c_location : codec location := c_struct
  (as_record (fun '(f, (l, c)) => {| l_file := f; l_line := l; l_column := c |}) (fun x => (l_file x, (l_line x, l_column x)))
     (req "file" c_str +++ nullable "line" u64 +++ nullable "column" u64)).

(* v0_2.rs:290-301 *)
Record oob_error := { oe_message : bytes; oe_backtrace : option (list bytes); oe_exception : option bytes;
                      oe_location : option location; oe_meta : option metadata }.
Definition c_oob : codec oob_error := c_struct
  (as_record (fun '(m, (b, (e, (l, t)))) => {| oe_message := m; oe_backtrace := b; oe_exception := e; oe_location := l; oe_meta := t |})
     (fun x => (oe_message x, (oe_backtrace x, (oe_exception x, (oe_location x, oe_meta x)))))
     (req "message" c_str +++ opt "backtrace" (c_vec c_str) +++ opt "exception" c_str +++ opt "location" c_location +++
      opt "meta" c_meta)).

(* v0_2.rs:142-156 (Failure and Error have the same fields), runners.rs:586-600 *)
Record trouble := { tr_exception : option bytes; tr_backtrace : option (list bytes) }.
Definition p_trouble : part trouble :=
  as_record (fun '(e, b) => {| tr_exception := e; tr_backtrace := b |}) (fun x => (tr_exception x, tr_backtrace x))
    (opt "exception" c_str +++ opt "backtrace" (c_vec c_str)).

(* runners.rs:584-612 *)
Inductive status :=
| Failure (t : trouble) | Success | Error (t : trouble) | Pending | Todo | Skipped | TimedOut | PrivateNativeRunnerError.

(* v0_2.rs:158-175: the tag tells the variant; the fields of Failure and Error are beside it. *)
Inductive v2_status := VFailure (t : trouble) | VError (t : trouble) | VSuccess | VPending | VSkipped | VTodo | VTimedOut.
Definition c_v2_status : codec v2_status :=
  {| c_enc := fun s =>
       let tagged n l := obj (("type"%string, Some (JStr (text n))) :: l) in
       match s with
       | VFailure t => tagged "failure"%string (p_slots p_trouble t)
       | VError t => tagged "error"%string (p_slots p_trouble t)
       | VSuccess => tagged "success"%string []
       | VPending => tagged "pending"%string []
       | VSkipped => tagged "skipped"%string []
       | VTodo => tagged "todo"%string []
       | VTimedOut => tagged "timed_out"%string []
       end;
     c_dec := fun j =>
       match j with
       | JObj ms =>
           match find_field "type" ms with
           | One (JStr n) =>
               if bytes_eqb n (text "failure") then option_map VFailure (p_dec p_trouble ms)
               else if bytes_eqb n (text "error") then option_map VError (p_dec p_trouble ms)
               else if bytes_eqb n (text "success") then Some VSuccess
               else if bytes_eqb n (text "pending") then Some VPending
               else if bytes_eqb n (text "skipped") then Some VSkipped
               else if bytes_eqb n (text "todo") then Some VTodo
               else if bytes_eqb n (text "timed_out") then Some VTimedOut
               else None
           | _ => None
           end
       | _ => None
       end;
     c_ok := fun s => match s with VFailure t | VError t => p_ok p_trouble t | _ => True end |}.

(* A result and the earlier attempts that the runner tells with it, each a result itself.  [B] and
   [C] are the fields before and after the attempts. *)
Inductive tree (B C : Type) := Res (b : B) (past : option (list (tree B C))) (c : C).
Arguments Res {B C}.

Section Tree.
Context {B C : Type} (pb : part B) (pc : part C).
Fixpoint enc_tree (t : tree B C) : json :=
  match t with
  | Res b past c => obj (p_slots pb b ++ ("past_attempts"%string, option_map (fun l => JArr (map enc_tree l)) past) :: p_slots pc c)
  end.
Fixpoint dec_tree (j : json) : option (tree B C) :=
  match j with
  | JObj ms =>
      let attempts := map (fun '(k, v) =>
        (k, match v with
            | JNull => Some None
            | JArr l => option_map Some (seq_opt (map dec_tree l))
            | _ => None
            end)) ms in
      match p_dec pb ms, find_field "past_attempts" attempts, p_dec pc ms with
      | Some b, Missing, Some c => Some (Res b None c)
      | Some b, One (Some past), Some c => Some (Res b past c)
      | _, _, _ => None
      end
  | _ => None
  end.
Fixpoint tree_ok (t : tree B C) : Prop :=
  match t with
  | Res b past c =>
      p_ok pb b /\ p_ok pc c /\
      match past with
      | Some l => (fix go l := match l with [] => True | x :: l' => tree_ok x /\ go l' end) l
      | None => True
      end
  end.
Definition c_tree : codec (tree B C) := {| c_enc := enc_tree; c_dec := dec_tree; c_ok := tree_ok |}.
End Tree.

(* v0_2.rs:208-234; Nanoseconds and Iso8601 (139-140, 205-206) are written as what they hold. *)
Record v2_core := { v_status : v2_status; v_id : bytes; v_display_name : bytes; v_output : option bytes; v_runtime : N;
                    v_meta : metadata; v_location : option location; v_started : option bytes; v_finished : option bytes;
                    v_lineage : option (list bytes) }.
Definition p_v2_core : part v2_core :=
  as_record
    (fun '(s, (i, (d, (o, (r, (m, (l, (st, (fi, li))))))))) =>
       {| v_status := s; v_id := i; v_display_name := d; v_output := o; v_runtime := r; v_meta := m; v_location := l;
          v_started := st; v_finished := fi; v_lineage := li |})
    (fun x => (v_status x, (v_id x, (v_display_name x, (v_output x, (v_runtime x, (v_meta x, (v_location x,
               (v_started x, (v_finished x, v_lineage x))))))))))
    (req "status" c_v2_status +++ req "id" c_str +++ req "display_name" c_str +++ opt "output" c_str +++ req "runtime" u64 +++
     req "meta" c_meta +++ opt "location" c_location +++ opt "started_at" c_str +++ opt "finished_at" c_str +++
     opt "lineage" (c_vec c_str)).
Definition p_errors : part (option (list oob_error)) := opt "other_errors" (c_vec c_oob).
Definition v2_result := tree v2_core (option (list oob_error)).
Definition c_v2_result : codec v2_result := c_tree p_v2_core p_errors.

(* v0_2.rs:305-342: the messages of a runner about results. *)
Inductive result_message := IncrementalOne (r : v2_result) | IncrementalDone (r : option v2_result)
                          | Single (r : v2_result) | Multiple (rs : list v2_result).
Definition p_one := req "one_test_result" c_v2_result.
Definition p_last := nullable "last_test_result" c_v2_result.
Definition p_single := req "test_result" c_v2_result.
Definition p_multiple := req "test_results" (c_vec c_v2_result).
Definition orelse {A} (x y : option A) : option A := match x with Some _ => x | None => y end.
(* v0_2.rs:315-324 *)
Definition dec_incremental (j : json) : option result_message :=
  match j with
  | JObj ms =>
      match find_field "type" ms with
      | One (JStr n) =>
          if bytes_eqb n (text "incremental_result") then option_map IncrementalOne (p_dec p_one ms)
          else if bytes_eqb n (text "incremental_result_done") then option_map IncrementalDone (p_dec p_last ms)
          else None
      | _ => None
      end
  | _ => None
  end.
(* v0_2.rs:336-342: untagged, the first variant that fits *)
Definition c_result_message : codec result_message :=
  {| c_enc := fun m =>
       match m with
       | IncrementalOne r => obj (("type"%string, Some (JStr (text "incremental_result"))) :: p_slots p_one r)
       | IncrementalDone r => obj (("type"%string, Some (JStr (text "incremental_result_done"))) :: p_slots p_last r)
       | Single r => obj (p_slots p_single r)
       | Multiple rs => obj (p_slots p_multiple rs)
       end;
     c_dec := fun j =>
       orelse (dec_incremental j)
         (orelse (option_map Single (c_dec (c_struct p_single) j)) (option_map Multiple (c_dec (c_struct p_multiple) j)));
     c_ok := fun m => match m with
                      | IncrementalOne r | Single r => c_ok c_v2_result r
                      | IncrementalDone r => if_some (c_ok c_v2_result) r
                      | Multiple rs => c_ok (c_vec c_v2_result) rs
                      end |}.

(* ---- results, as the rest of ABQ has them (runners.rs) ---- *)

(* Externally tagged enums: a variant without fields is its name, others are objects with the name
   as the only key. *)
Definition variant (name : string) (v : json) : json := JObj [(text name, v)].

Definition c_status : codec status :=
  {| c_enc := fun s =>
       match s with
       | Failure t => variant "Failure" (c_enc (c_struct p_trouble) t)
       | Success => JStr (text "Success")
       | Error t => variant "Error" (c_enc (c_struct p_trouble) t)
       | Pending => JStr (text "Pending")
       | Todo => JStr (text "Todo")
       | Skipped => JStr (text "Skipped")
       | TimedOut => JStr (text "TimedOut")
       | PrivateNativeRunnerError => JStr (text "PrivateNativeRunnerError")
       end;
     c_dec := fun j =>
       match j with
       | JObj [(k, v)] =>
           if bytes_eqb k (text "Failure") then option_map Failure (c_dec (c_struct p_trouble) v)
           else if bytes_eqb k (text "Error") then option_map Error (c_dec (c_struct p_trouble) v)
           else None
       | JStr n =>
           if bytes_eqb n (text "Success") then Some Success
           else if bytes_eqb n (text "Pending") then Some Pending
           else if bytes_eqb n (text "Todo") then Some Todo
           else if bytes_eqb n (text "Skipped") then Some Skipped
           else if bytes_eqb n (text "TimedOut") then Some TimedOut
           else if bytes_eqb n (text "PrivateNativeRunnerError") then Some PrivateNativeRunnerError
           else None
       | _ => None
       end;
     c_ok := fun s => match s with Failure t | Error t => p_ok p_trouble t | _ => True end |}.

(* runners.rs:552-556 *)
Inductive runtime := Milliseconds (f : bytes) | Nanoseconds (n : N).
Definition c_runtime : codec runtime :=
  {| c_enc := fun r => match r with
                       | Milliseconds f => variant "Milliseconds" (c_enc f64 f)
                       | Nanoseconds n => variant "Nanoseconds" (c_enc u64 n)
                       end;
     c_dec := fun j => match j with
                       | JObj [(k, v)] =>
                           if bytes_eqb k (text "Milliseconds") then option_map Milliseconds (c_dec f64 v)
                           else if bytes_eqb k (text "Nanoseconds") then option_map Nanoseconds (c_dec u64 v)
                           else None
                       | _ => None
                       end;
     c_ok := fun r => match r with Milliseconds f => c_ok f64 f | Nanoseconds n => c_ok u64 n end |}.

(* runners.rs:709-738 *)
Record core := { k_status : status; k_id : bytes; k_display_name : bytes; k_output : option bytes; k_runtime : runtime;
                 k_meta : metadata; k_location : option location; k_started : option bytes; k_finished : option bytes;
                 k_lineage : option (list bytes) }.
Definition p_core : part core :=
  as_record
    (fun '(s, (i, (d, (o, (r, (m, (l, (st, (fi, li))))))))) =>
       {| k_status := s; k_id := i; k_display_name := d; k_output := o; k_runtime := r; k_meta := m; k_location := l;
          k_started := st; k_finished := fi; k_lineage := li |})
    (fun x => (k_status x, (k_id x, (k_display_name x, (k_output x, (k_runtime x, (k_meta x, (k_location x,
               (k_started x, (k_finished x, k_lineage x))))))))))
    (req "status" c_status +++ req "id" c_str +++ req "display_name" c_str +++ opt "output" c_str +++ req "runtime" c_runtime +++
     req "meta" c_meta +++ opt "location" c_location +++ opt "started_at" c_str +++ opt "finished_at" c_str +++
     opt "lineage" (c_vec c_str)).
Record rest := { k_errors : option (list oob_error); k_stderr : option (list N); k_stdout : option (list N); k_timestamp : N }.
Definition p_rest : part rest :=
  as_record (fun '(e, (se, (so, t))) => {| k_errors := e; k_stderr := se; k_stdout := so; k_timestamp := t |})
    (fun x => (k_errors x, (k_stderr x, (k_stdout x, k_timestamp x))))
    (p_errors +++ opt "stderr" (c_vec u8) +++ opt "stdout" (c_vec u8) +++ req "timestamp" u128).
Definition result_spec := tree core rest.
Definition c_result_spec : codec result_spec := c_tree p_core p_rest.

(* net_protocol.rs:57-59, 73-75, 93-94, 123-130 *)
Definition c_worker_runner : codec (N * N) := c_pair u32 u32.
Record runner_meta := { rm_runner : N * N; rm_singleton : bool; rm_stdout_reporters : bool }.
Definition c_runner_meta : codec runner_meta := c_struct
  (as_record (fun '(r, (s, h)) => {| rm_runner := r; rm_singleton := s; rm_stdout_reporters := h |})
     (fun x => (rm_runner x, (rm_singleton x, rm_stdout_reporters x)))
     (req "runner" c_worker_runner +++ req "is_singleton" c_bool +++ req "has_stdout_reporters" c_bool)).

(* runners.rs:824-829 *)
Definition test_result := (runner_meta * result_spec)%type.
Definition c_test_result : codec test_result := c_struct (req "source" c_runner_meta +++ req "result" c_result_spec).

(* runners.rs:991-995 *)
Definition c_stdio : codec (list N * list N) := c_struct (req "stderr" (c_vec u8) +++ req "stdout" (c_vec u8)).

(* net_protocol.rs:291, 562-571 *)
Record associated := { a_work_id : list N; a_run_number : N; a_results : list test_result;
                       a_before : list N * list N; a_after : option (list N * list N) }.
Definition c_associated : codec associated := c_struct
  (as_record (fun '(w, (n, (r, (b, a)))) => {| a_work_id := w; a_run_number := n; a_results := r; a_before := b; a_after := a |})
     (fun x => (a_work_id x, (a_run_number x, (a_results x, (a_before x, a_after x)))))
     (req "work_id" (c_array 16 u8) +++ req "run_number" u32 +++ req "results" (c_vec c_test_result) +++
      req "before_any_test" c_stdio +++ nullable "after_all_tests" c_stdio)).

(* runners.rs:34-39, v0_2.rs:19-29, net_protocol.rs:590-594, 743-747 *)
Definition c_version : codec (N * N) := c_tagged "abq_protocol_version" (req "major" u64 +++ req "minor" u64).
Record specification := { sp_name : bytes; sp_version : bytes; sp_framework : bytes; sp_framework_version : bytes;
                          sp_language : bytes; sp_language_version : bytes; sp_host : bytes }.
Definition c_specification : codec specification := c_tagged "abq_native_runner_specification"
  (as_record (fun '(a, (b, (c, (d, (e, (f, g)))))) => {| sp_name := a; sp_version := b; sp_framework := c;
       sp_framework_version := d; sp_language := e; sp_language_version := f; sp_host := g |})
     (fun x => (sp_name x, (sp_version x, (sp_framework x, (sp_framework_version x, (sp_language x, (sp_language_version x, sp_host x)))))))
     (req "name" c_str +++ req "version" c_str +++ req "test_framework" c_str +++ req "test_framework_version" c_str +++
      req "language" c_str +++ req "language_version" c_str +++ req "host" c_str)).
Definition c_runner_info : codec ((N * N) * specification) :=
  c_struct (req "protocol_version" c_version +++ req "specification" c_specification).
Definition c_summary : codec (N * ((N * N) * specification)) :=
  c_struct (req "manifest_size_nonce" u64 +++ req "native_runner_info" c_runner_info).

(* net_protocol.rs:734-741 *)
Inductive results_line := Results (l : list associated) | Summary (s : N * ((N * N) * specification)).
Definition c_results_line : codec results_line :=
  {| c_enc := fun x => match x with
                       | Results l => variant "Results" (c_enc (c_vec c_associated) l)
                       | Summary s => variant "Summary" (c_enc c_summary s)
                       end;
     c_dec := fun j => match j with
                       | JObj [(k, v)] =>
                           if bytes_eqb k (text "Results") then option_map Results (c_dec (c_vec c_associated) v)
                           else if bytes_eqb k (text "Summary") then option_map Summary (c_dec c_summary v)
                           else None
                       | _ => None
                       end;
     c_ok := fun x => match x with Results l => c_ok (c_vec c_associated) l | Summary s => c_ok c_summary s end |}.

(* net_protocol.rs:158-165, 187-191 *)
Inductive tag := Runner (r : N * N) | LocalClient | ExternalClient.
Definition c_tag : codec tag :=
  {| c_enc := fun t => match t with
                       | Runner r => variant "Runner" (c_enc c_worker_runner r)
                       | LocalClient => JStr (text "LocalClient")
                       | ExternalClient => JStr (text "ExternalClient")
                       end;
     c_dec := fun j => match j with
                       | JObj [(k, v)] => if bytes_eqb k (text "Runner") then option_map Runner (c_dec c_worker_runner v) else None
                       | JStr n => if bytes_eqb n (text "LocalClient") then Some LocalClient
                                   else if bytes_eqb n (text "ExternalClient") then Some ExternalClient else None
                       | _ => None
                       end;
     c_ok := fun t => match t with Runner r => c_ok c_worker_runner r | _ => True end |}.
Definition c_entity : codec (list N * tag) := c_struct (req "id" (c_array 16 u8) +++ req "tag" c_tag).

(* net_protocol.rs:626-630, 656-684: the request that brings results to the queue; of the messages
   only WorkerResult(RunId, Vec<AssociatedTestResults>) is read here. *)
Definition c_worker_result : codec (bytes * list associated) :=
  let c := c_pair c_str (c_vec c_associated) in
  {| c_enc := fun x => variant "WorkerResult" (c_enc c x);
     c_dec := fun j => match j with
                       | JObj [(k, v)] => if bytes_eqb k (text "WorkerResult") then c_dec c v else None
                       | _ => None
                       end;
     c_ok := c_ok c |}.
Definition c_request : codec ((list N * tag) * (bytes * list associated)) :=
  c_struct (req "entity" c_entity +++ req "message" c_worker_result).

(* ---- from the runner's words to ABQ's (runners.rs:631-657, 770-810, 863-895; v0_2.rs:326-357) ---- *)

Definition normal_status (s : v2_status) : status :=
  match s with
  | VFailure t => Failure t | VSuccess => Success | VError t => Error t | VPending => Pending | VSkipped => Skipped
  | VTodo => Todo | VTimedOut => TimedOut
  end.
Definition normal_core (v : v2_core) : core :=
  {| k_status := normal_status (v_status v); k_id := v_id v; k_display_name := v_display_name v; k_output := v_output v;
     k_runtime := Nanoseconds (v_runtime v); k_meta := v_meta v; k_location := v_location v; k_started := v_started v;
     k_finished := v_finished v; k_lineage := v_lineage v |}.
Fixpoint normal (now : N) (r : v2_result) : result_spec :=
  match r with
  | Res v past e =>
      Res (normal_core v) (option_map (map (normal now)) past)
          {| k_errors := e; k_stderr := None; k_stdout := None; k_timestamp := now |}
  end.
Definition reify (now : N) (source : runner_meta) (r : v2_result) : test_result := (source, normal now r).

Inductive result_set := All (l : list test_result) | StepOne (r : test_result) | StepDone (r : option test_result).
Definition into_test_results (now : N) (source : runner_meta) (m : result_message) : result_set :=
  match m with
  | Single r => All [reify now source r]
  | Multiple rs => All (map (reify now source) rs)
  | IncrementalOne r => StepOne (reify now source r)
  | IncrementalDone r => StepDone (option_map (reify now source) r)
  end.

(* ---- texts ---- *)

(* serde_json::from_slice, as async_read uses it for a message (net_protocol.rs:1320-1346), and
   to_vec *)
Definition from_text {A} (c : codec A) (b : bytes) : option A :=
  match read_json b with Some j => c_dec c j | None => None end.
Definition to_text {A} (c : codec A) (a : A) : bytes := write (c_enc c a).

(* ---- a worker waits for the results of one unit of work (generic_test_runner/src/lib.rs:1165-1272) ---- *)

(* One message of the runner: its text, the time and the runner's output when it is read. *)
Record said := { s_text : bytes; s_now : N; s_captured : list N * list N }.

(* lib.rs:1268-1272 *)
Definition attach (captured : list N * list N) (r : test_result) : test_result :=
  match r with
  | (source, Res k past e) =>
      (source, Res k past {| k_errors := k_errors e; k_stderr := Some (fst captured); k_stdout := Some (snd captured);
                             k_timestamp := k_timestamp e |})
  end.

(* RawIncrementalTestResultMessage (runners.rs:936-952) *)
Definition read_increment (b : bytes) : option result_message :=
  match read_json b with Some j => dec_incremental j | None => None end.

(* lib.rs:1207-1237: the results, and the output after the last of them; None if a message cannot be read or
   is missing. *)
Fixpoint poll (source : runner_meta) (step : result_set) (captured : list N * list N) (results : list test_result)
  (more : list said) : option (list test_result * option (list N * list N)) :=
  match step with
  | StepDone (Some r) => Some (results ++ [attach captured r], None)
  | StepDone None => Some (results, Some captured)
  | StepOne r =>
      match more with
      | [] => None
      | m :: more' =>
          match read_increment (s_text m) with
          | Some i => poll source (into_test_results (s_now m) source i) (s_captured m) (results ++ [attach captured r]) more'
          | None => None
          end
      end
  | All _ => None
  end.
(* lib.rs:1191-1248 *)
Definition wait_for_results (source : runner_meta) (work : list N) (run_number : N) (before : list N * list N)
  (words : list said) : option associated :=
  match words with
  | [] => None
  | m :: more =>
      match from_text c_result_message (s_text m) with
      | None => None
      | Some i =>
          option_map (fun '(rs, after) =>
            {| a_work_id := work; a_run_number := run_number; a_results := rs; a_before := before; a_after := after |})
            (match into_test_results (s_now m) source i with
             | All rs => Some (map (attach (s_captured m)) rs, None)
             | step => poll source step (s_captured m) [] more
             end)
      end
  end.
