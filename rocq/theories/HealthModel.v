(* Model of `abq health`, down to the bytes of its conversations: crates/abq_cli/src/main.rs:593-648,
   crates/abq_cli/src/health.rs, and of the servers of a queue what they do with such a conversation,
   crates/abq_queue/src/queue.rs:1895-1912, 2006-2018, 2587-2612,
   crates/abq_workers/src/negotiate.rs:567-596; with the authentication of AuthModel, the framing of
   WireModel and the JSON forms of CodecModel.

   Not modelled: TLS (a connection that needs it and does not get it does not connect); what the
   servers do with other messages (CallModel): here they close the connection. *)
From Verif Require Import Base JsonModel JsonlModel RunStateModel AuthModel WireModel CodecModel.
From Coq Require Import String.
Local Open Scope list_scope.

(* health.rs:7-11; net_protocol.rs and negotiate.rs know the three servers by the type of their requests *)
Inductive service := Queue | WorkScheduler | Negotiator.

(* std::net::SocketAddr *)
Definition address := (nat * nat)%type.

(* net_protocol.rs:18-22 *)
Definition c_health : codec (bool * bytes) := c_struct (req "healthy" c_bool +++ req "version" c_str).
(* net_protocol.rs:24-29; [version] is crate::VERSION of the server *)
Definition healthy (version : bytes) : bool * bytes := (true, version).

(* The variant HealthCheck of the three types of messages, each externally tagged: it is its name.
   net_protocol.rs:658 (Queue), 848 (WorkScheduler), negotiate.rs:101 (Negotiator) *)
Definition healthcheck_name (s : service) : string :=
  match s with Queue => "HealthCheck" | WorkScheduler => "HealthCheck" | Negotiator => "HealthCheck" end.
(* Other variants are not read here. *)
Definition c_healthcheck (s : service) : codec unit :=
  {| c_enc := fun _ => JStr (text (healthcheck_name s));
     c_dec := fun j => match j with
                       | JStr n => if RunStateModel.bytes_eqb n (text (healthcheck_name s)) then Some tt else None
                       | _ => None
                       end;
     c_ok := fun _ => True |}.
(* net_protocol.rs:626-630, 840-844, negotiate.rs:93-97 *)
Definition c_ask (s : service) : codec ((list N * CodecModel.tag) * unit) :=
  c_struct (req "entity" c_entity +++ req "message" (c_healthcheck s)).

Section Health.
(* flate2, as in WireModel *)
Context (gz_encode : bytes -> bytes) (gz_decode : bytes -> option bytes).

(* What is at an address. *)
Inductive place :=
| Nobody
| Abq (s : service) (auth : server_auth) (version : bytes)  (* a server of a queue *)
| Stranger (reply : bytes -> bytes * bool).                 (* anything else: for what it is sent, what it sends back and whether it closes *)

(* What the network and the schedulers do in one conversation: whether it connects (and the token is
   written), whether the request is written, how the server's reading goes, after how many bytes the
   connection breaks for what the server writes, if it does, and how the caller's reading goes. *)
Record link := { l_connects : bool; l_sends : bool; l_events : list event; l_cut : option nat; l_turns : list turn }.

Definition cut_to (o : option nat) (b : bytes) : bytes := match o with Some n => firstn n b | None => b end.

(* queue.rs:1895-1912, 2006-2018 (Queue), 2587-2612 (WorkScheduler), negotiate.rs:567-596 (Negotiator):
   the handshake, one message, and the answer; then the stream is dropped.  Of the result the bytes
   written and whether the connection is closed. *)
Definition serve (s : service) (auth : server_auth) (version : bytes) (l : link) (sent : bytes) : bytes * bool :=
  match handshake auth sent with
  | None => ([], true)
  | Some (_, stream) =>
      match w_out (run (wstep gz_decode false) (connect stream) (l_events l)) with
      | [] => ([], false)
      | Message msg _ :: _ =>
          match c_dec (c_ask s) msg with
          | Some (_, tt) => (cut_to (l_cut l) (frame gz_encode true (c_enc c_health (healthy version))), true)
          | None => ([], true)
          end
      | WireModel.Error _ :: _ => ([], true)
      end
  end.

Definition conversation (p : place) (l : link) (sent : bytes) : option (bytes * bool) :=
  match p with
  | Nobody => None
  | Abq s auth version => Some (serve s auth version l sent)
  | Stranger reply => Some (reply sent)
  end.

(* health.rs:38-87: None, or an answer, or no end yet.  [entity] is Entity::local_client(). *)
Inductive checked := Answered (h : bool * bytes) | NoHealth | Hangs.

Definition get_health (token : client_auth) (entity : list N * CodecModel.tag) (s : service) (p : place) (l : link) : checked :=
  if negb (l_connects l) then NoHealth
  else if negb (l_sends l) then NoHealth
  else match conversation p l (send_header token ++ frame gz_encode true (c_enc (c_ask s) (entity, tt))) with
       | None => NoHealth
       | Some (reply, closed) =>
           match read_help gz_decode closed reply (l_turns l) with
           | Waiting => Hangs
           | Failed _ => NoHealth
           | Done msg _ _ => match c_dec c_health msg with Some h => Answered h | None => NoHealth end
           end
       end.

(* main.rs:634, 642: the lines printed *)
Inductive line := HealthyLine (s : service) (a : address) (version : bytes) | UnhealthyLine (s : service) (a : address).

(* how the command ends *)
Inductive ending := UsageError | IoError | Exit (code : nat) (lines : list line) | Never (lines : list line).

(* main.rs:626-644; the i-th service asked, in the i-th conversation *)
Fixpoint check_all (token : client_auth) (entities : nat -> list N * CodecModel.tag) (at_ : address -> place) (links : nat -> link)
                   (i : nat) (to_check : list (service * address)) (all_healthy : bool) (lines : list line) : ending :=
  match to_check with
  | [] => Exit (if all_healthy then 0 else 1) lines
  | (s, a) :: rest =>
      match get_health token (entities i) s (at_ a) (links i) with
      | Answered (true, version) => check_all token entities at_ links (S i) rest all_healthy (lines ++ [HealthyLine s a version])
      | Answered (false, _) | NoHealth => check_all token entities at_ links (S i) rest false (lines ++ [UnhealthyLine s a])
      | Hangs => Never lines
      end
  end.

(* main.rs:601-607 *)
Definition asked (queue work_scheduler negotiator : list address) : list (service * address) :=
  map (pair Queue) queue ++ map (pair WorkScheduler) work_scheduler ++ map (pair Negotiator) negotiator.

(* main.rs:593-648; [cert_ok] is whether the certificate file, if given, can be read and understood *)
Definition health (token : client_auth) (cert_ok : bool) (queue work_scheduler negotiator : list address)
                  (entities : nat -> list N * CodecModel.tag) (at_ : address -> place) (links : nat -> link) : ending :=
  match asked queue work_scheduler negotiator with
  | [] => UsageError
  | to_check => if cert_ok then check_all token entities at_ links 0 to_check true [] else IoError
  end.
End Health.
