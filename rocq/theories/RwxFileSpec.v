(* What C86 says: about the JSON value that any reader of the file gets, without the functions of
   the model that write it. *)
From Verif Require Import Base JsonModel JsonProofs JsonlModel RunStateModel CodecModel.
From Coq Require Import String NArith.
Local Open Scope list_scope.

(* The value of a member of an object. *)
Definition getb (key : bytes) (j : json) : option json :=
  match j with
  | JObj ms => option_map snd (find (fun kv => if list_eq_dec Nat.eq_dec (fst kv) key then true else false) ms)
  | _ => None
  end.
Definition get (name : string) (j : json) : option json := getb (text name) j.
Definition word (s : string) : option json := Some (JStr (text s)).
Definition texts (l : list bytes) : json := JArr (map JStr l).
Definition number (n : N) : json := JNum (nat_text n).
Definition elements (o : option json) : list json := match o with Some (JArr l) => l | _ => [] end.

Section Spec.
Context (lossy : list N -> bytes) (millis : bytes -> N).

(* The JSON value of a status of a result. *)
Definition shows_status (k : core) (s : json) : Prop :=
  let kind w := get "kind" s = word w in
  let message := get "message" s = option_map JStr (k_output k) in
  match k_status k with
  | Success => kind "successful"%string
  | Failure t | Error t => kind "failed"%string /\ message /\ get "exception" s = option_map JStr (tr_exception t) /\
                           get "backtrace" s = option_map texts (tr_backtrace t)
  | Pending => kind "pended"%string /\ message
  | Skipped => kind "skipped"%string /\ message
  | Todo => kind "todo"%string /\ message
  | TimedOut => kind "timedOut"%string
  | PrivateNativeRunnerError => False
  end.

(* The JSON value of an attempt shows a result that a runner of a worker told. *)
Definition shows (runner : N * N) (t : result_spec) (j : json) : Prop :=
  let '(Res k _ r) := t in
  get "durationInNanoseconds" j = Some (number (match k_runtime k with Nanoseconds n => n | Milliseconds f => millis f end)) /\
  get "startedAt" j = option_map JStr (k_started k) /\
  get "finishedAt" j = option_map JStr (k_finished k) /\
  get "stdout" j = option_map (fun b => JStr (lossy b)) (k_stdout r) /\
  get "stderr" j = option_map (fun b => JStr (lossy b)) (k_stderr r) /\
  (exists s, get "status" j = Some s /\ shows_status k s) /\
  (exists m source, get "meta" j = Some m /\
     get "abq_metadata" m = Some source /\ get "worker" source = Some (number (fst runner)) /\ get "runner" source = Some (number (snd runner)) /\
     forall key, key <> text "abq_metadata" -> getb key m = getb key (JObj (k_meta k))).

(* The attempts at a test in the file, oldest first. *)
Definition attempts (j : json) : list json :=
  elements (get "pastAttempts" j) ++ match get "attempt" j with Some a => [a] | None => [] end.

(* The JSON value of a test names the test of a result. *)
Definition names_test (t : result_spec) (j : json) : Prop :=
  let '(Res k _ _) := t in
  get "id" j = Some (JStr (k_id k)) /\ get "name" j = Some (JStr (k_display_name k)) /\
  get "lineage" j = option_map texts (k_lineage k) /\
  match k_location k, get "location" j with
  | None, None => True
  | Some l, Some o => get "file" o = Some (JStr (l_file l)) /\ get "line" o = option_map number (l_line l) /\
                      get "column" o = option_map number (l_column l)
  | _, _ => False
  end.

Definition id_of (r : test_result) : bytes := let '(Res k _ _) := snd r in k_id k.
Definition status_of (r : test_result) : status := let '(Res k _ _) := snd r in k_status k.
Definition output_of (r : test_result) : option bytes := let '(Res k _ _) := snd r in k_output k.
Definition located (r : test_result) : Prop := let '(Res k _ _) := snd r in k_location k <> None.
Definition past_of (t : result_spec) : list result_spec := let '(Res _ p _) := t in match p with Some l => l | None => [] end.

Definition about (i : bytes) (rs : list test_result) : list test_result :=
  filter (fun r => if list_eq_dec Nat.eq_dec (id_of r) i then true else false) rs.

(* What a result tells about its test, oldest attempt first. *)
Definition timeline (r : test_result) : list ((N * N) * result_spec) :=
  map (pair (rm_runner (fst r))) (past_of (snd r) ++ [snd r]).

(* A result of a test, not an error of the native runner itself, whose past attempts are such results
   without past attempts of their own. *)
Definition material (t : result_spec) : Prop := let '(Res k _ _) := t in k_status k <> PrivateNativeRunnerError.
Definition plain (r : test_result) : Prop :=
  material (snd r) /\ forall t, In t (past_of (snd r)) -> material t /\ past_of t = [].
Definition failing (s : status) : Prop := match s with Failure _ | Error _ => True | _ => False end.
(* it did not fail outside of any file *)
Definition placed (r : test_result) : Prop := located r \/ ~ failing (status_of r).

(* The number of all attempts that a result tells. *)
Fixpoint size (t : result_spec) : nat :=
  match t with
  | Res _ past _ => S (match past with Some l => list_sum (map size l) | None => 0 end)
  end.
Definition total (rs : list test_result) : nat := list_sum (map (fun r => size (snd r)) rs).

(* Results as they are in ABQ: values of their types, not nested deeper than a message may be, fewer
   than 2^64 attempts. *)
Definition results_ok (rs : list test_result) : Prop :=
  Forall (fun r => c_ok c_test_result r /\ nesting (c_enc c_result_spec (snd r)) <= 123) rs /\ (N.of_nat (total rs) < 2 ^ 64)%N /\
  (forall f, millis f < 2 ^ 64)%N.

(* The kind of the last attempt at a test. *)
Definition last_kind (j : json) : option json :=
  match get "attempt" j with Some a => match get "status" a with Some s => get "kind" s | None => None end | None => None end.
Definition of_kind (s : string) (j : json) : bool :=
  match last_kind j with Some (JStr w) => if list_eq_dec Nat.eq_dec w (text s) then true else false | _ => false end.
Definition how_many (f : json -> bool) (l : list json) : json := number (N.of_nat (List.length (filter f l))).
End Spec.
