(* Model of the derived JSON forms (serde) of manifests and tests, from the manifest of a native test runner
   (protocol 0.2) to the tests that are given to runners:
   crates/abq_utils/src/net_protocol/runners/v0_2.rs:31-104, 132-135 (the protocol),
   crates/abq_utils/src/net_protocol/runners.rs:149-155, 201-216, 316-334, 514-531 (its wrappers, which write
   and read what they hold), crates/abq_utils/src/net_protocol.rs:393-403, 421-470, 551-558, 662-684, 865-924, and
   crates/abq_queue/src/persistence/manifest.rs:22-26.  The combinators and their simplifications are those
   of CodecModel; manifests are those of FlattenModel. *)
From Verif Require Import Base JsonModel JsonProofs JsonlModel RunStateModel CodecModel FlattenModel.
From Coq Require Import String.

Definition a_test := test bytes metadata (list bytes).
Definition a_node := node bytes metadata (list bytes) bytes.
Definition a_manifest := manifest bytes metadata (list bytes) bytes.

(* v0_2.rs:31-36 *)
Definition p_test : part a_test :=
  as_record (fun '(i, (t, m)) => {| t_id := i; t_tags := t; t_meta := m |}) (fun x => (t_id x, (t_tags x, t_meta x)))
    (req "id" c_str +++ req "tags" (c_vec c_str) +++ req "meta" c_meta).
(* v0_2.rs:38-44 without the members *)
Definition p_name : part bytes := req "name" c_str.
Definition p_tags_meta : part (list bytes * metadata) := req "tags" (c_vec c_str) +++ req "meta" c_meta.

(* v0_2.rs:46-53 *)
Fixpoint enc_node (n : a_node) : json :=
  match n with
  | Test t => obj (("type"%string, Some (JStr (text "test"))) :: p_slots p_test t)
  | Group name members tags meta =>
      obj (("type"%string, Some (JStr (text "group"))) :: p_slots p_name name ++
           ("members"%string, Some (JArr (map enc_node members))) :: p_slots p_tags_meta (tags, meta))
  end.
Fixpoint dec_node (j : json) : option a_node :=
  match j with
  | JObj ms =>
      let members := map (fun '(k, v) => (k, match v with JArr l => seq_opt (map dec_node l) | _ => None end)) ms in
      match find_field "type" ms with
      | One (JStr n) =>
          if bytes_eqb n (text "test") then option_map Test (p_dec p_test ms)
          else if bytes_eqb n (text "group") then
            match p_dec p_name ms, find_field "members" members, p_dec p_tags_meta ms with
            | Some name, One (Some l), Some (tags, meta) => Some (Group name l tags meta)
            | _, _, _ => None
            end
          else None
      | _ => None
      end
  | _ => None
  end.
Fixpoint node_ok (n : a_node) : Prop :=
  match n with
  | Test t => p_ok p_test t
  | Group name members tags meta =>
      p_ok p_name name /\ p_ok p_tags_meta (tags, meta) /\
      (fix go l := match l with [] => True | x :: l' => node_ok x /\ go l' end) members
  end.
Definition c_node : codec a_node := {| c_enc := enc_node; c_dec := dec_node; c_ok := node_ok |}.

(* v0_2.rs:55-59 *)
Definition c_manifest : codec a_manifest := c_struct
  (as_record (fun '(l, m) => {| m_members := l; m_init_meta := m |}) (fun x => (m_members x, m_init_meta x))
     (req "members" (c_vec c_node) +++ req "init_meta" c_meta)).

(* v0_2.rs:61-82: untagged, by their fields *)
Inductive manifest_message := ManifestSuccess (m : a_manifest) (errors : option (list oob_error))
                            | ManifestFailure (e : oob_error) (errors : option (list oob_error)).
Definition p_success := req "manifest" c_manifest +++ p_errors.
Definition p_failure := req "error" c_oob +++ p_errors.
Definition c_manifest_message : codec manifest_message :=
  {| c_enc := fun m => match m with
                       | ManifestSuccess m es => c_enc (c_tagged "manifest_success" p_success) (m, es)
                       | ManifestFailure e es => c_enc (c_tagged "manifest_failure" p_failure) (e, es)
                       end;
     c_dec := fun j => orelse (option_map (fun '(m, es) => ManifestSuccess m es) (c_dec (c_tagged "manifest_success" p_success) j))
                         (option_map (fun '(e, es) => ManifestFailure e es) (c_dec (c_tagged "manifest_failure" p_failure) j));
     c_ok := fun m => match m with
                      | ManifestSuccess m es => p_ok p_success (m, es)
                      | ManifestFailure e es => p_ok p_failure (e, es)
                      end |}.

(* net_protocol.rs:437-470 *)
Record reported := { r_manifest : a_manifest; r_protocol : N * N; r_specification : specification }.
Definition c_reported : codec reported := c_struct
  (as_record (fun '(m, (p, s)) => {| r_manifest := m; r_protocol := p; r_specification := s |})
     (fun x => (r_manifest x, (r_protocol x, r_specification x)))
     (req "manifest" c_manifest +++ req "native_runner_protocol" c_version +++ req "native_runner_specification" c_specification)).
Inductive manifest_result := TheManifest (r : reported) | TestRunnerError (error : bytes) (output : list N * list N).
Definition p_runner_error := req "error" c_str +++ req "output" c_stdio.
Definition c_manifest_result : codec manifest_result :=
  {| c_enc := fun x => match x with
                       | TheManifest r => variant "Manifest" (c_enc c_reported r)
                       | TestRunnerError e o => variant "TestRunnerError" (c_enc (c_struct p_runner_error) (e, o))
                       end;
     c_dec := fun j => match j with
                       | JObj [(k, v)] =>
                           if bytes_eqb k (text "Manifest") then option_map TheManifest (c_dec c_reported v)
                           else if bytes_eqb k (text "TestRunnerError") then
                             option_map (fun '(e, o) => TestRunnerError e o) (c_dec (c_struct p_runner_error) v)
                           else None
                       | _ => None
                       end;
     c_ok := fun x => match x with TheManifest r => c_ok c_reported r | TestRunnerError e o => p_ok p_runner_error (e, o) end |}.
(* net_protocol.rs:626-630, 673-674: ManifestResult(RunId, ManifestResult) as a request *)
Definition c_manifest_told : codec (bytes * manifest_result) :=
  let c := c_pair c_str c_manifest_result in
  {| c_enc := fun x => variant "ManifestResult" (c_enc c x);
     c_dec := fun j => match j with
                       | JObj [(k, v)] => if bytes_eqb k (text "ManifestResult") then c_dec c v else None
                       | _ => None
                       end;
     c_ok := c_ok c |}.
Definition c_manifest_request : codec ((list N * tag) * (bytes * manifest_result)) :=
  c_struct (req "entity" c_entity +++ req "message" c_manifest_told).

(* v0_2.rs:99-104, 132-135; net_protocol.rs:551-558, 393-403, 409-430 *)
Record test_case := { tc_id : bytes; tc_meta : metadata; tc_focus : option (list bytes) }.
Definition c_focus : codec (list bytes) := c_struct (req "test_ids" (c_vec c_str)).
Definition c_test_case : codec test_case := c_struct
  (as_record (fun '(i, (m, f)) => {| tc_id := i; tc_meta := m; tc_focus := f |}) (fun x => (tc_id x, (tc_meta x, tc_focus x)))
     (req "id" c_str +++ req "meta" c_meta +++ opt "focus" c_focus)).
Record worker_test := { wt_work_id : list N; wt_case : test_case; wt_run_number : N }.
Definition c_worker_test : codec worker_test := c_struct
  (as_record (fun '((w, c), n) => {| wt_work_id := w; wt_case := c; wt_run_number := n |})
     (fun x => ((wt_work_id x, wt_case x), wt_run_number x))
     (req "spec" (c_struct (req "work_id" (c_array 16 u8) +++ req "test_case" c_test_case)) +++ req "run_number" u32)).
Definition c_bundle : codec (list worker_test * bool) := c_struct (req "work" (c_vec c_worker_test) +++ req "eow" c_bool).

(* net_protocol.rs:888-892 *)
Definition c_next_tests : codec (list worker_test * bool) :=
  {| c_enc := fun x => variant "Bundle" (c_enc c_bundle x);
     c_dec := fun j => match j with
                       | JObj [(k, v)] => if bytes_eqb k (text "Bundle") then c_dec c_bundle v else None
                       | _ => None
                       end;
     c_ok := c_ok c_bundle |}.

(* net_protocol.rs:894-900, 913-923 *)
Inductive retry_error := RunDoesNotExist | ManifestNeverReceived | FailedToLoad | RunCancelled.
Inductive retry_response := RetryManifest (b : list worker_test * bool) | NotYetPersisted | RetryFailed (e : retry_error).
Definition error_name (e : retry_error) : string :=
  match e with
  | RunDoesNotExist => "RunDoesNotExist" | ManifestNeverReceived => "ManifestNeverReceived"
  | FailedToLoad => "FailedToLoad" | RunCancelled => "RunCancelled"
  end.
Definition c_retry_error : codec retry_error :=
  {| c_enc := fun e => JStr (text (error_name e));
     c_dec := fun j => match j with
                       | JStr n => find (fun e => bytes_eqb n (text (error_name e))) [RunDoesNotExist; ManifestNeverReceived; FailedToLoad; RunCancelled]
                       | _ => None
                       end;
     c_ok := fun _ => True |}.
Definition c_retry_response : codec retry_response :=
  {| c_enc := fun x => match x with
                       | RetryManifest b => variant "Manifest" (c_enc c_bundle b)
                       | NotYetPersisted => JStr (text "NotYetPersisted")
                       | RetryFailed e => variant "Error" (c_enc c_retry_error e)
                       end;
     c_dec := fun j => match j with
                       | JObj [(k, v)] =>
                           if bytes_eqb k (text "Manifest") then option_map RetryManifest (c_dec c_bundle v)
                           else if bytes_eqb k (text "Error") then option_map RetryFailed (c_dec c_retry_error v)
                           else None
                       | JStr n => if bytes_eqb n (text "NotYetPersisted") then Some NotYetPersisted else None
                       | _ => None
                       end;
     c_ok := fun x => match x with RetryManifest b => c_ok c_bundle b | _ => True end |}.

(* net_protocol.rs:865-880 *)
Inductive init_response := WaitingForManifest | InitContext (init_meta : metadata) | AlreadyCompleted (cancelled : bool).
Definition p_init := req "init_meta" c_meta.
Definition p_cancelled := req "cancelled" c_bool.
Definition c_init_response : codec init_response :=
  {| c_enc := fun x => match x with
                       | WaitingForManifest => JStr (text "WaitingForManifest")
                       | InitContext m => variant "InitContext" (c_enc (c_struct p_init) m)
                       | AlreadyCompleted c => variant "RunAlreadyCompleted" (c_enc (c_struct p_cancelled) c)
                       end;
     c_dec := fun j => match j with
                       | JObj [(k, v)] =>
                           if bytes_eqb k (text "InitContext") then option_map InitContext (c_dec (c_struct p_init) v)
                           else if bytes_eqb k (text "RunAlreadyCompleted") then option_map AlreadyCompleted (c_dec (c_struct p_cancelled) v)
                           else None
                       | JStr n => if bytes_eqb n (text "WaitingForManifest") then Some WaitingForManifest else None
                       | _ => None
                       end;
     c_ok := fun x => match x with InitContext m => p_ok p_init m | _ => True end |}.

(* persistence/manifest.rs:22-26 *)
Record view := { vw_items : list worker_test; vw_assigned : list tag }.
Definition c_view : codec view := c_struct
  (as_record (fun '(i, a) => {| vw_items := i; vw_assigned := a |}) (fun x => (vw_items x, vw_assigned x))
     (req "items" (c_vec c_worker_test) +++ req "assigned_entities" (c_vec c_tag))).

(* v0_2.rs:84-97: what a worker writes to its runner *)
Definition c_case_message : codec test_case := c_struct (req "test_case" c_test_case).
Definition c_init_message : codec (metadata * bool) := c_struct (req "init_meta" c_meta +++ req "fast_exit" c_bool).

(* ---- the way of a manifest ---- *)

(* The worker that generates it (generic_test_runner/src/lib.rs:169-199, 803-820): what is told to the queue.
   [failed] is the text of an error; None if the message cannot be read. *)
Definition report (failed : oob_error -> bytes) (version : N * N) (spec : specification) (output : list N * list N) (b : bytes)
  : option manifest_result :=
  match from_text c_manifest_message b with
  | Some (ManifestSuccess m _) => Some (TheManifest {| r_manifest := m; r_protocol := version; r_specification := spec |})
  | Some (ManifestFailure e _) => Some (TestRunnerError (failed e) output)
  | None => None
  end.

(* The queue (queue.rs:2070-2117, 2145-2160; FlattenModel): each test with a fresh work id, here any function of
   FlattenModel's numbers, and the first run number (net_protocol.rs:411-413). *)
Definition queued (ids : nat -> list N) (s : FlattenModel.spec bytes metadata) : worker_test :=
  {| wt_work_id := ids (s_work_id s); wt_case := {| tc_id := s_id s; tc_meta := s_meta s; tc_focus := s_focus s |}; wt_run_number := 1 |}.
