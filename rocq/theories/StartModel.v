(* Model of how queues are set up, and of how one finds one's way in them:
   crates/abq_cli/src/args.rs:69-220 (the options of `abq start`),
   crates/abq_cli/src/main.rs:293-366, 657-667 (the command),
   crates/abq_cli/src/instance.rs:46-118, 161-215 (start_abq_forever up to its loop, build_scheduled_jobs),
   :299-371 (AbqInstance, new_ephemeral),
   crates/abq_cli/src/instance/local_persistence.rs (with PersisterModel.local_dir),
   crates/abq_utils/src/net_opt.rs:9-62 (ServerOptions), crates/abq_utils/src/tls.rs:54-67,
   crates/abq_queue/src/queue.rs:1586-1685 (QueueConfig::new, start_queue), :2035-2049 (handle_negotiator_info),
   crates/abq_workers/src/negotiate.rs:411-445 (ask_queue), :498-528, 575-640 (QueueNegotiator::start, handle_conn),
   crates/abq_utils/src/net_protocol.rs:926-929 (publicize_addr).

   Not part of it: what the loop of start_abq_forever does with signals (InstanceModel), the jobs
   (InstanceModel, ResultsFsModel, ManifestFsModel), the life of the servers (LifeModel), the bytes of
   the messages (ProtocolModel), which run a worker is assigned (RunModel). *)
From Verif Require Import Base OffloadModel PersisterModel AuthModel.
From Coq Require Import String.
Local Open Scope list_scope.

Section Start.
(* IP addresses, schedules as cron parsed them, TLS configurations of servers, and certificates as clients hold them *)
Context {Ip Cron Tls Cert : Type}.

(* std::net::SocketAddr *)
Definition address : Type := Ip * N.

(* args.rs:69-220; options that can also be given by a variable of the environment are there however
   they were given.  [o_remote] are the four --remote-persistence options (remote_persistence.rs:47-52). *)
Record options := {
  o_bind : Ip; o_public_ip : option Ip; o_port : N; o_work_port : N; o_negotiator_port : N;
  o_user_token : option (list nat); o_admin_token : option (list nat);
  o_tls_cert : option string; o_tls_key : option string;
  o_manifests_dir : option string; o_results_dir : option string; o_remote : config;
  o_manifests_cron : option Cron; o_results_cron : option Cron; o_stale_hours : N }.

Definition given {A} (x : option A) : bool := match x with Some _ => true | None => false end.

(* args.rs:105-133: requires(...), both ways; ports are u16, hours a u32 *)
Definition accepted (o : options) : bool :=
  Bool.eqb (given (o_user_token o)) (given (o_admin_token o)) &&
  Bool.eqb (given (o_tls_cert o)) (given (o_tls_key o)) &&
  N.ltb (o_port o) (2 ^ 16) && N.ltb (o_work_port o) (2 ^ 16) && N.ltb (o_negotiator_port o) (2 ^ 16) &&
  N.ltb (o_stale_hours o) (2 ^ 32).

(* What the host does: the contents of files; whether rustls makes a configuration of a certificate and a key; the
   first and the second temporary directory; whether S3 was compiled in; whether the scheduler takes a
   schedule; the port that one gets who asks for an address, when those ports are in use already. *)
Record host := {
  h_read : string -> option (list nat); h_tls : list nat -> list nat -> option Tls;
  h_temp1 : option string; h_temp2 : option string; h_s3 : bool; h_schedules : Cron -> bool;
  h_bind : list N -> Ip -> N -> option N }.

(* Why there is no queue.  The last two are panics. *)
Inductive failure :=
| CannotRead (path : string) | BadTls | NoTemporaryDirectory | NoRemote (why : refusal) | BadSchedule
| CannotBind (asked : address) | Unreachable.

(* instance.rs:104-118 *)
Inductive line := LiveOn (a : address) | ManifestsAt (dir : string) | ResultsAt (dir : string) | TestWith (queue_addr : address).

(* queue.rs:1562-1584; of the persisters only where they are *)
Record queue_config := {
  c_public_ip : Ip; c_bind_ip : Ip; c_server_port : N; c_work_port : N; c_negotiator_port : N;
  c_auth : server_auth; c_tls : option Tls;
  c_manifests : string; c_results : string; c_remote : persister }.

(* What serves at an address *)
Inductive service := TheQueue | TheNegotiator | TheWorkServer.

(* queue.rs:1671-1685 and what the three servers were given *)
Record queue := {
  q_server : address; q_negotiator : address; q_work : address;
  q_auth : service -> server_auth; q_tls : service -> option Tls;
  q_public_negotiator : address; q_advertised_work : address; q_advertised_results : address;
  q_manifests : string; q_results : string; q_remote : persister }.

(* net_protocol.rs:926-929 *)
Definition publicize_addr (a : address) (ip : Ip) : address := (ip, snd a).

(* queue.rs:1615-1685 with negotiate.rs:498-528; every bind is unwrapped *)
Definition start_queue (bind : list N -> Ip -> N -> option N) (c : queue_config) : queue + failure :=
  let ip := c_bind_ip c in
  match bind [] ip (c_server_port c) with
  | None => inr (CannotBind (ip, c_server_port c))
  | Some server =>
      match bind [server] ip (c_negotiator_port c) with
      | None => inr (CannotBind (ip, c_negotiator_port c))
      | Some negotiator =>
          match bind [negotiator; server] ip (c_work_port c) with
          | None => inr (CannotBind (ip, c_work_port c))
          | Some work =>
              inl {| q_server := (ip, server); q_negotiator := (ip, negotiator); q_work := (ip, work);
                     q_auth := fun s => match s with TheQueue => c_auth c | TheNegotiator => c_auth c | TheWorkServer => c_auth c end;
                     q_tls := fun s => match s with TheQueue => c_tls c | TheNegotiator => c_tls c | TheWorkServer => c_tls c end;
                     q_public_negotiator := publicize_addr (ip, negotiator) (c_public_ip c);
                     q_advertised_work := publicize_addr (ip, work) (c_public_ip c);
                     q_advertised_results := publicize_addr (ip, server) (c_public_ip c);
                     q_manifests := c_manifests c; q_results := c_results c; q_remote := c_remote c |}
          end
      end
  end.

(* main.rs:657-667 *)
Definition read_opt_path_bytes (h : host) (p : option string) : option (list nat) + failure :=
  match p with
  | Some p => match h_read h p with Some b => inl (Some b) | None => inr (CannotRead p) end
  | None => inl None
  end.

(* instance.rs:161-215: the jobs, each with its schedule and what it offloads; what is stale, in seconds *)
Record jobs := { j_manifests : option (Cron * offload_config); j_results : option (Cron * offload_config) }.
Definition build_scheduled_jobs (h : host) (manifests results : option Cron) (stale : N) : jobs + failure :=
  let c := After (Z.of_N stale) in
  let refused x := match x with Some s => negb (h_schedules h s) | None => false end in
  if refused manifests then inr BadSchedule
  else if refused results then inr BadSchedule
  else inl {| j_manifests := option_map (fun s => (s, c)) manifests; j_results := option_map (fun s => (s, c)) results |}.

(* A queue that serves, the jobs beside it, what was printed, and the temporary directories that there are while it serves. *)
Record live := { l_queue : queue; l_jobs : jobs; l_lines : list line; l_temporary : list string }.

(* local_persistence.rs:52-71: a directory, and the temporary directories made for it *)
Definition persisted_dir (configured temp : option string) : (string * list string) + failure :=
  match configured with
  | Some d => inl (d, [])
  | None => match temp with Some d => inl (d, [d]) | None => inr NoTemporaryDirectory end
  end.

(* instance.rs:46-118: the directories are held until the function returns *)
Definition start_abq_forever (h : host) (o : options) (auth : server_auth) (tls : option Tls) (stale : N) : live + failure :=
  let public_ip := match o_public_ip o with Some ip => ip | None => o_bind o end in
  match persisted_dir (o_manifests_dir o) (h_temp1 h) with
  | inr e => inr e
  | inl (manifests, made1) =>
      match persisted_dir (o_results_dir o) (match made1 with [] => h_temp1 h | _ => h_temp2 h end) with
      | inr e => inr e
      | inl (results, made2) =>
          match resolve (h_s3 h) (o_remote o) with
          | inr why => inr (NoRemote why)
          | inl remote =>
              match build_scheduled_jobs h (o_manifests_cron o) (o_results_cron o) stale with
              | inr e => inr e
              | inl js =>
                  match start_queue (h_bind h)
                          {| c_public_ip := public_ip; c_bind_ip := o_bind o; c_server_port := o_port o;
                             c_work_port := o_work_port o; c_negotiator_port := o_negotiator_port o;
                             c_auth := auth; c_tls := tls; c_manifests := manifests; c_results := results; c_remote := remote |} with
                  | inr e => inr e
                  | inl q =>
                      inl {| l_queue := q; l_jobs := js;
                             l_lines := [LiveOn (q_server q); ManifestsAt manifests; ResultsAt results;
                                         TestWith (publicize_addr (q_server q) public_ip)];
                             l_temporary := made1 ++ made2 |}
                  end
              end
          end
      end
  end.

(* main.rs:313-366 *)
Definition abq_start (h : host) (o : options) : live + failure :=
  match (match o_user_token o, o_admin_token o with
         | Some user, Some admin => Some (STokens user admin)
         | None, None => Some SNoAuth
         | _, _ => None
         end) with
  | None => inr Unreachable
  | Some auth =>
      match read_opt_path_bytes h (o_tls_cert o), read_opt_path_bytes h (o_tls_key o) with
      | inr e, _ => inr e
      | _, inr e => inr e
      | inl (Some cert), inl (Some key) =>
          match h_tls h cert key with
          | None => inr BadTls
          | Some t => start_abq_forever h o auth (Some t) (o_stale_hours o * 60 * 60)
          end
      | inl None, inl None => start_abq_forever h o auth None (o_stale_hours o * 60 * 60)
      | _, _ => inr Unreachable
      end
  end.

(* instance.rs:320-367 with queue.rs:1586-1610: the queue of a local run.  [admin] is the random admin
   token, [unspecified] 0.0.0.0.  The two TempDir are values of this function, so that the directories are
   removed when it returns, which is before the queue is used: none of them is left. *)
Definition new_ephemeral (h : host) (unspecified : Ip) (user : option (list nat)) (admin : list nat) (tls : option Tls) : live + failure :=
  let auth := match user with Some u => STokens u admin | None => SNoAuth end in
  match h_temp1 h, h_temp2 h with
  | Some manifests, Some results =>
      match start_queue (h_bind h)
              {| c_public_ip := unspecified; c_bind_ip := unspecified; c_server_port := 0; c_work_port := 0; c_negotiator_port := 0;
                 c_auth := auth; c_tls := tls; c_manifests := manifests; c_results := results; c_remote := PNoop |} with
      | inr e => inr e
      | inl q => inl {| l_queue := q; l_jobs := {| j_manifests := None; j_results := None |}; l_lines := []; l_temporary := [] |}
      end
  | _, _ => inr NoTemporaryDirectory
  end.

(* ---- finding one's way in a queue ---- *)

(* A client: which IP addresses lead to the host of the queue from where it is, what it sends before its messages,
   its certificate, its version. *)
Record client := { k_leads : Ip -> bool; k_auth : client_auth; k_cert : option Cert; k_version : nat }.

(* What is listening at a port of the host *)
Definition at_port (q : queue) (p : N) : option service :=
  if N.eqb p (snd (q_server q)) then Some TheQueue
  else if N.eqb p (snd (q_negotiator q)) then Some TheNegotiator
  else if N.eqb p (snd (q_work q)) then Some TheWorkServer
  else None.

(* rustls, and what becomes of one side with it and one without: whether the connection comes about *)
Context (secures : option Tls -> option Cert -> bool).

(* Connecting, the handshakes of both sides (net_async/{tcp,tls}.rs) and the message: which service reads this message.
   A server that takes something else for the message than what was sent does not understand it. *)
Definition reaches (q : queue) (k : client) (message : list nat) (a : address) : option service :=
  if k_leads k (fst a) then
    match at_port q (snd a) with
    | None => None
    | Some s =>
        if secures (q_tls q s) (k_cert k) then
          match handshake (q_auth q s) (send_header (k_auth k) ++ message) with
          | Some (_, rest) => if bytes_eqb rest message then Some s else None
          | None => None
          end
        else None
    end
  else None.

Inductive no_way := CouldNotConnect | IncompatibleVersion (theirs : nat) | NoAnswer.

(* negotiate.rs:411-445 with queue.rs:2035-2049: only the queue itself understands the question
   (ProtocolProps.C88_no_mistaking). *)
Definition ask_queue (version : nat) (q : queue) (k : client) (question : list nat) (a : address) : address + no_way :=
  match reaches q k question a with
  | Some TheQueue => if Nat.eqb version (k_version k) then inl (q_public_negotiator q) else inr (IncompatibleVersion version)
  | _ => inr CouldNotConnect
  end.

(* instance.rs:306-311: a local run asks nobody *)
Definition negotiator_handle (q : queue) : address := q_negotiator q.

(* negotiate.rs:325-381 with 575-640, when the run is assigned: where work is asked for, and where results are sent to *)
Definition attach (q : queue) (k : client) (question : list nat) (a : address) : (address * address) + no_way :=
  match reaches q k question a with
  | Some TheNegotiator => inl (q_advertised_work q, q_advertised_results q)
  | _ => inr NoAnswer
  end.

(* What `abq test --queue-addr=a` does before its runners start *)
Definition find_way (version : nat) (q : queue) (k : client) (question1 question2 : list nat) (a : address) : (address * address) + no_way :=
  match ask_queue version q k question1 a with
  | inr e => inr e
  | inl n => attach q k question2 n
  end.
End Start.
Arguments options : clear implicits. Arguments host : clear implicits. Arguments queue : clear implicits.
Arguments live : clear implicits. Arguments client : clear implicits. Arguments failure : clear implicits.
Arguments jobs : clear implicits. Arguments line : clear implicits.
