(* Model of the derived JSON forms (serde) of all messages that ABQ's processes send each other:
   crates/abq_utils/src/net_protocol.rs:18-52, 471-558, 596-704, 840-911, crates/abq_workers/src/negotiate.rs:66-103,
   crates/abq_workers/src/assigned_run.rs:8-24, crates/abq_utils/src/exit.rs:6-7,
   crates/abq_utils/src/test_command_hash.rs:3-4; of what they hold the forms of CodecModel and
   ManifestCodecModel; and how a server reads its first message (AuthModel, WireModel).

   Simplifications: those of CodecModel; "-0", which is never written, is read as an integer here; of
   the texts of socket addresses that are read but never written, ports with leading zeros are read and
   IPv6 addresses are left to a parameter. *)
From Coq Require Import String NArith ZArith.
From Verif Require Import Base JsonModel JsonlModel RunStateModel AuthModel WireModel CodecModel ManifestCodecModel.
Local Open Scope list_scope.

(* ---- externally tagged enums ---- *)

(* The variants of an enum: one without fields, or one that holds a value. *)
Inductive arm (A : Type) : Type :=
| Plain (name : string) (a : A) (is : A -> bool)
| Holds {B : Type} (name : string) (c : codec B) (make : B -> A) (get : A -> option B).
Arguments Plain {A}. Arguments Holds {A B}.
Definition arm_name {A} (m : arm A) : string := match m with Plain n _ _ => n | Holds n _ _ _ => n end.

Fixpoint enc_enum {A} (arms : list (arm A)) (a : A) : json :=
  match arms with
  | [] => JNull
  | Plain n _ is :: rest => if is a then JStr (text n) else enc_enum rest a
  | Holds n c _ get :: rest => match get a with Some b => variant n (c_enc c b) | None => enc_enum rest a end
  end.
Fixpoint dec_plain {A} (arms : list (arm A)) (name : bytes) : option A :=
  match arms with
  | [] => None
  | Plain n a _ :: rest => if RunStateModel.bytes_eqb name (text n) then Some a else dec_plain rest name
  | Holds _ _ _ _ :: rest => dec_plain rest name
  end.
Fixpoint dec_holding {A} (arms : list (arm A)) (name : bytes) (v : json) : option A :=
  match arms with
  | [] => None
  | Plain _ _ _ :: rest => dec_holding rest name v
  | Holds n c make _ :: rest => if RunStateModel.bytes_eqb name (text n) then option_map make (c_dec c v) else dec_holding rest name v
  end.
Fixpoint ok_enum {A} (arms : list (arm A)) (a : A) : Prop :=
  match arms with
  | [] => False
  | Plain _ _ is :: rest => if is a then True else ok_enum rest a
  | Holds _ c _ get :: rest => match get a with Some b => c_ok c b | None => ok_enum rest a end
  end.
Definition c_enum {A} (arms : list (arm A)) : codec A :=
  {| c_enc := enc_enum arms;
     c_dec := fun j => match j with
                       | JStr n => dec_plain arms n
                       | JObj [(k, v)] => dec_holding arms k v
                       | _ => None
                       end;
     c_ok := ok_enum arms |}.

(* ---- parts ---- *)

(* an enum without variants *)
Inductive never :=.
Definition c_never : codec never := {| c_enc := fun x : never => match x return json with end; c_dec := fun _ => None; c_ok := fun _ => True |}.
(* a struct without fields *)
Definition p_none : part unit := {| p_names := []; p_slots := fun _ => []; p_dec := fun _ => Some tt; p_ok := fun _ => True |}.
(* i32 *)
Definition i32 : codec Z :=
  {| c_enc := fun z => JNum (z_text z);
     c_dec := fun j => match j with
                       | JNum t => match text_z t with Some z => if ((- 2 ^ 31 <=? z) && (z <? 2 ^ 31))%Z then Some z else None | None => None end
                       | _ => None
                       end;
     c_ok := fun z => (- 2 ^ 31 <= z < 2 ^ 31)%Z |}.
(* NonZeroU64 *)
Definition nonzero_u64 : codec N :=
  {| c_enc := c_enc u64;
     c_dec := fun j => match c_dec u64 j with Some 0%N => None | x => x end;
     c_ok := fun n => c_ok u64 n /\ n <> 0%N |}.

(* std::net::SocketAddr as its text.  [V6]: an address and its port as the library has them. *)
Inductive socket_addr (V : Type) := V4 (a b c d port : N) | V6 (v : V).
Arguments V4 {V}. Arguments V6 {V}.

Section Addr.
Context {V : Type} (show6 : V -> bytes) (parse6 : bytes -> option V).

Definition show_addr (a : socket_addr V) : bytes :=
  match a with
  | V4 a b c d port => nat_text a ++ [46] ++ nat_text b ++ [46] ++ nat_text c ++ [46] ++ nat_text d ++ [58] ++ nat_text port
  | V6 v => show6 v
  end.
(* digits, and what follows *)
Fixpoint span_digits (b : bytes) : bytes * bytes :=
  match b with
  | c :: b' => if is_digit c then let (d, r) := span_digits b' in (c :: d, r) else ([], b)
  | [] => ([], [])
  end.
(* an octet: at most three digits, no leading zero, below 256 *)
Definition octet (b : bytes) : option (N * bytes) :=
  let (d, r) := span_digits b in
  match text_nat d with
  | Some n => if (Nat.leb (List.length d) 3 && (match d with 48 :: _ :: _ => false | _ => true end) && (n <? 256)%N)%bool then Some (n, r) else None
  | None => None
  end.
Definition expect (c : nat) (b : bytes) : option bytes := match b with c' :: r => if Nat.eqb c' c then Some r else None | [] => None end.
Definition octet_then (c : nat) (b : bytes) : option (N * bytes) :=
  match octet b with Some (n, r) => match expect c r with Some r' => Some (n, r') | None => None end | None => None end.
Definition parse4 (x : bytes) : option (socket_addr V) :=
  match octet_then 46 x with
  | Some (a, r1) =>
      match octet_then 46 r1 with
      | Some (b, r2) =>
          match octet_then 46 r2 with
          | Some (c, r3) =>
              match octet_then 58 r3 with
              | Some (d, r4) =>
                  match text_nat r4 with Some port => if (port <? 2 ^ 16)%N then Some (V4 a b c d port) else None | None => None end
              | None => None
              end
          | None => None
          end
      | None => None
      end
  | None => None
  end.
Definition parse_addr (b : bytes) : option (socket_addr V) :=
  match parse4 b with Some a => Some a | None => option_map V6 (parse6 b) end.
Definition c_addr : codec (socket_addr V) :=
  {| c_enc := fun a => JStr (show_addr a);
     c_dec := fun j => match j with JStr s => parse_addr s | _ => None end;
     c_ok := fun a => match a with
                      | V4 a b c d port => (a < 256 /\ b < 256 /\ c < 256 /\ d < 256 /\ port < 2 ^ 16)%N
                      | V6 _ => True
                      end |}.

(* ---- to the queue (net_protocol.rs:626-684) ---- *)

Notation run_id := bytes.
Inductive queue_message :=
| QHealthCheck
| QActiveTestRuns
| QNegotiatorInfo (run : run_id) (deprecations : list never)
| QCancelRun (run : run_id)
| QManifestResult (run : run_id) (m : manifest_result)
| QWorkerResult (run : run_id) (results : list associated)
| QWorkerRanAllTests (run : run_id)
| QTestResults (run : run_id)
| QRunStatus (run : run_id).
Definition c_queue_message : codec queue_message := c_enum
  [Plain "HealthCheck" QHealthCheck (fun x => match x with QHealthCheck => true | _ => false end);
   Plain "ActiveTestRuns" QActiveTestRuns (fun x => match x with QActiveTestRuns => true | _ => false end);
   Holds "NegotiatorInfo" (c_struct (req "run_id" c_str +++ req "deprecations" (c_vec c_never)))
     (fun '(r, d) => QNegotiatorInfo r d) (fun x => match x with QNegotiatorInfo r d => Some (r, d) | _ => None end);
   Holds "CancelRun" c_str QCancelRun (fun x => match x with QCancelRun r => Some r | _ => None end);
   Holds "ManifestResult" (c_pair c_str c_manifest_result)
     (fun '(r, m) => QManifestResult r m) (fun x => match x with QManifestResult r m => Some (r, m) | _ => None end);
   Holds "WorkerResult" (c_pair c_str (c_vec c_associated))
     (fun '(r, l) => QWorkerResult r l) (fun x => match x with QWorkerResult r l => Some (r, l) | _ => None end);
   Holds "WorkerRanAllTests" c_str QWorkerRanAllTests (fun x => match x with QWorkerRanAllTests r => Some r | _ => None end);
   Holds "TestResults" c_str QTestResults (fun x => match x with QTestResults r => Some r | _ => None end);
   Holds "RunStatus" c_str QRunStatus (fun x => match x with QRunStatus r => Some r | _ => None end)].

Notation entity := (list N * CodecModel.tag)%type.
Definition c_to {M} (c : codec M) : codec (entity * M) := c_struct (req "entity" c_entity +++ req "message" c).
Definition c_to_queue : codec (entity * queue_message) := c_to c_queue_message.

(* its answers: net_protocol.rs:485-490, 596-624, 632-654, 686-700; health: HealthModel *)
Definition c_negotiator_info : codec (socket_addr V * bytes) := c_struct (req "negotiator_address" c_addr +++ req "version" c_str).
Definition c_active_runs : codec N := c_struct (req "active_runs" u64).
Definition c_ack_manifest : codec unit := c_tagged "AckManifest" p_none.
Definition c_ack_results : codec unit := c_tagged "AckTestResults" p_none.
Definition c_ack_ran_all : codec unit := c_tagged "AckWorkerRanAllTests" p_none.
Definition c_ack_cancellation : codec unit := c_tagged "AckTestCancellation" p_none.
Inductive run_status := RunActive | RunManifestDone (active_workers : N) | RunStatusCancelled.
Definition c_run_status : codec run_status := c_enum
  [Plain "Active" RunActive (fun x => match x with RunActive => true | _ => false end);
   Holds "InitialManifestDone" (c_struct (req "num_active_workers" u64)) RunManifestDone
     (fun x => match x with RunManifestDone n => Some n | _ => None end);
   Plain "Cancelled" RunStatusCancelled (fun x => match x with RunStatusCancelled => true | _ => false end)].
Inductive results_response := StreamingResults | ResultsPending | RunInProgress (active : list CodecModel.tag) | ResultsError (e : bytes).
Definition c_results_response : codec results_response := c_enum
  [Plain "StreamingResults" StreamingResults (fun x => match x with StreamingResults => true | _ => false end);
   Plain "Pending" ResultsPending (fun x => match x with ResultsPending => true | _ => false end);
   Holds "RunInProgress" (c_struct (req "active_runners" (c_vec c_tag))) RunInProgress
     (fun x => match x with RunInProgress l => Some l | _ => None end);
   Holds "Error" c_str ResultsError (fun x => match x with ResultsError e => Some e | _ => None end)].

(* ---- to the work server (net_protocol.rs:840-863, 884-886); its answers are in ManifestCodecModel ---- *)

Inductive work_message :=
| WHealthCheck | WInitContext (run : run_id) | WNextTestsConnection (run : run_id) | WRetryManifestPartition (run : run_id) (e : entity).
Definition c_work_message : codec work_message := c_enum
  [Plain "HealthCheck" WHealthCheck (fun x => match x with WHealthCheck => true | _ => false end);
   Holds "InitContext" (c_struct (req "run_id" c_str)) WInitContext (fun x => match x with WInitContext r => Some r | _ => None end);
   Holds "PersistentWorkerNextTestsConnection" c_str WNextTestsConnection
     (fun x => match x with WNextTestsConnection r => Some r | _ => None end);
   Holds "RetryManifestPartition" (c_struct (req "run_id" c_str +++ req "entity" c_entity))
     (fun '(r, e) => WRetryManifestPartition r e) (fun x => match x with WRetryManifestPartition r e => Some (r, e) | _ => None end)].
Definition c_to_work_server : codec (entity * work_message) := c_to c_work_message.
Definition c_next_test_request : codec unit := c_tagged "NextTestRequest" p_none.

(* ---- to the negotiator (negotiate.rs:93-103) and its answers (66-91) ---- *)

(* net_protocol.rs:501-516, 541-549 *)
Inductive strategy := ByTest | ByTopLevelGroup.
Definition c_strategy : codec strategy := c_enum
  [Plain "ByTest" ByTest (fun x => match x with ByTest => true | _ => false end);
   Plain "ByTopLevelGroup" ByTopLevelGroup (fun x => match x with ByTopLevelGroup => true | _ => false end)].
Record invoke_work := { iw_run : run_id; iw_batch_size : N; iw_strategy : strategy; iw_command_hash : list N }.
Definition c_invoke_work : codec invoke_work := c_struct
  (as_record (fun '(r, (b, (s, h))) => {| iw_run := r; iw_batch_size := b; iw_strategy := s; iw_command_hash := h |})
     (fun x => (iw_run x, (iw_batch_size x, (iw_strategy x, iw_command_hash x))))
     (req "run_id" c_str +++ req "batch_size_hint" nonzero_u64 +++ req "test_strategy" c_strategy +++
      req "test_command_hash" (c_array 32 u8))).
Inductive negotiator_message := NHealthCheck | NWantsToAttach (i : invoke_work).
Definition c_negotiator_message : codec negotiator_message := c_enum
  [Plain "HealthCheck" NHealthCheck (fun x => match x with NHealthCheck => true | _ => false end);
   Holds "WantsToAttach" (c_struct (req "invoke_data" c_invoke_work)) NWantsToAttach
     (fun x => match x with NWantsToAttach i => Some i | _ => None end)].
Definition c_to_negotiator : codec (entity * negotiator_message) := c_to c_negotiator_message.

(* assigned_run.rs:8-24 *)
Inductive assigned_kind := Fresh (should_generate_manifest : bool) | RetryAndContinue.
Definition c_assigned_kind : codec assigned_kind := c_enum
  [Holds "Fresh" (c_struct (req "should_generate_manifest" c_bool)) Fresh (fun x => match x with Fresh b => Some b | _ => None end);
   Plain "RetryAndContinue" RetryAndContinue (fun x => match x with RetryAndContinue => true | _ => false end)].
Definition c_assigned : codec (assigned_kind * bool) :=
  c_struct (req "kind" c_assigned_kind +++ req "runner_test_command_differs" c_bool).
(* net_protocol.rs:614-624 *)
Inductive cancel_reason := User | ManifestHadNoProgress | ManifestNeverCame.
Definition c_cancel_reason : codec cancel_reason := c_enum
  [Plain "User" User (fun x => match x with User => true | _ => false end);
   Plain "ManifestHadNoProgress" ManifestHadNoProgress (fun x => match x with ManifestHadNoProgress => true | _ => false end);
   Plain "ManifestNeverReceived" ManifestNeverCame (fun x => match x with ManifestNeverCame => true | _ => false end)].
(* negotiate.rs:66-91 *)
Notation context := (socket_addr V * (socket_addr V * (assigned_kind * bool)))%type.
Definition c_context : codec context :=
  c_struct (req "work_server_addr" c_addr +++ req "queue_results_addr" c_addr +++ req "assigned" c_assigned).
Inductive attach_response :=
| RunAlreadyCompleted (exit_code : Z) | RunWasCancelled (r : cancel_reason) | ExecutionContext (x : context) | RunUnknown | FatalError (e : bytes).
Definition c_attach_response : codec attach_response := c_enum
  [Holds "RunAlreadyCompleted" (c_struct (req "exit_code" i32)) RunAlreadyCompleted
     (fun x => match x with RunAlreadyCompleted z => Some z | _ => None end);
   Holds "RunCancelled" (c_struct (req "reason" c_cancel_reason)) RunWasCancelled (fun x => match x with RunWasCancelled r => Some r | _ => None end);
   Holds "ExecutionContext" c_context ExecutionContext (fun x => match x with ExecutionContext c => Some c | _ => None end);
   Plain "RunUnknown" RunUnknown (fun x => match x with RunUnknown => true | _ => false end);
   Holds "FatalError" c_str FatalError (fun x => match x with FatalError e => Some e | _ => None end)].
End Addr.

(* ---- reading ---- *)

Section Wire.
Context (gz_encode : bytes -> bytes) (gz_decode : bytes -> option bytes).

(* What a client writes on a new connection (net_async.rs; AuthModel), and then its first message. *)
Definition says {A} (c : codec A) (token : client_auth) (a : A) : bytes := send_header token ++ frame gz_encode true (c_enc c a).

(* A server takes a connection (queue.rs:1895-1912, 2587-2600, negotiate.rs:567-590): it is still reading,
   it has the message, or it gives up. *)
Inductive taken (A : Type) := StillReading | Takes (a : A) | GivesUp.
Arguments StillReading {A}. Arguments Takes {A}. Arguments GivesUp {A}.
Definition takes {A} (c : codec A) (w : world) : taken A :=
  match w_out w with
  | [] => StillReading
  | Message m _ :: _ => match c_dec c m with Some a => Takes a | None => GivesUp end
  | WireModel.Error _ :: _ => GivesUp
  end.
Definition serves {A} (c : codec A) (auth : server_auth) (sent : bytes) (es : list event) : taken A :=
  match handshake auth sent with
  | None => GivesUp
  | Some (_, stream) => takes c (run (wstep gz_decode false) (connect stream) es)
  end.
(* A client reads the answer on its connection (async_read, and the blocking read). *)
Definition hears {A} (c : codec A) (sent : bytes) (es : list event) : taken A :=
  takes c (run (wstep gz_decode false) (connect sent) es).
Definition hears_blocking {A} (c : codec A) (closed : bool) (sent : bytes) (turns : list turn) : taken A :=
  match read_help gz_decode closed sent turns with
  | Waiting => StillReading
  | Failed _ => GivesUp
  | Done m _ _ => match c_dec c m with Some a => Takes a | None => GivesUp end
  end.
End Wire.
Arguments StillReading {A}. Arguments Takes {A}. Arguments GivesUp {A}.
