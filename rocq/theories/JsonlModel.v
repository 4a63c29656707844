(* Model of the packed lines of results.
   Writing: crates/abq_queue/src/persistence/results/fs.rs:340, 411-416.
   Reading: crates/abq_utils/src/net_protocol.rs:754-783
   (OpaqueLazyAssociatedTestResults::{decode, read_results_lines}).
   The derived serialisation of ResultsLine (net_protocol.rs:734-747) is a parameter,
   as a map to JSON values; UTF-8 is not checked by [lines]. *)
From Verif Require Import Base JsonModel.

Section Jsonl.
Context {L : Type} (enc : L -> json) (dec : json -> option L).

(* fs.rs:340 (serde_json::to_vec) *)
Definition packed (x : L) : bytes := write (enc x).
(* fs.rs:411-416 (write_packed_line) *)
Definition packed_line (x : L) : bytes := packed x ++ [10].

(* tokio's Lines::next_line: up to a line feed, without it and without a carriage
   return before it; a last line without line feed counts if it is not empty. *)
Definition chomp (rev_line : bytes) : bytes := match rev_line with 13 :: l => rev l | l => rev l end.
Fixpoint lines_from (acc : bytes) (b : bytes) : list bytes :=
  match b with
  | [] => match acc with [] => [] | _ => [rev acc] end
  | c :: b' => if Nat.eqb c 10 then chomp acc :: lines_from [] b' else lines_from (c :: acc) b'
  end.
Definition lines (b : bytes) : list bytes := lines_from [] b.

Fixpoint all_some {A B} (f : A -> option B) (l : list A) : option (list B) :=
  match l with
  | [] => Some []
  | x :: l' => match f x with
               | None => None
               | Some y => match all_some f l' with None => None | Some ys => Some (y :: ys) end
               end
  end.

(* RawValue::from_string: any JSON text, without a limit on nesting. *)
Definition raw_value (line : bytes) : option bytes :=
  match read_value (S (S (length line))) line with
  | Some (_, r) => match skip_ws r with [] => Some line | _ => None end
  | None => None
  end.

(* net_protocol.rs:768-783 *)
Definition read_results_lines (b : bytes) : option (list bytes) := all_some raw_value (lines b).

(* net_protocol.rs:759-765 *)
Definition decode (l : list bytes) : option (list L) :=
  all_some (fun line => match read_json line with Some j => dec j | None => None end) l.
End Jsonl.

(* net_protocol.rs:786-794 (into_jsonl_buffer) *)
Definition into_jsonl_buffer (l : list bytes) : bytes := flat_map (fun x => x ++ [10]) l.

(* The text of a string of ASCII characters, for field names. *)
From Coq Require Import String Ascii.
Definition text (s : string) : bytes := map nat_of_ascii (list_ascii_of_string s).

(* net_protocol.rs:734-741: ResultsLine::Results as JSON *)
Definition results_json (rs : list json) : json := JObj [(text "Results", JArr rs)].
(* net_protocol.rs:627-633, 656-676: the request of a worker to the queue that carries
   results (Request { entity, message: Message::WorkerResult(run_id, results) }) *)
Definition worker_result_json (entity run_id : json) (rs : list json) : json :=
  JObj [(text "entity", entity); (text "message", JObj [(text "WorkerResult", JArr [run_id; JArr rs])])].
