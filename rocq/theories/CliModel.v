(* Model of how the command line of `abq test` and `abq report` decides which queue to use:
   crates/abq_cli/src/main.rs:69-114 (answers of the API, environment), 228-248 (inferred run id),
   371-498 (`abq test`), 500-592 (`abq report`), 669-765 (resolve_config and its parts), 811-830
   (arguments of the test command), 832-862 (validate_queue_location), 864-918
   (find_or_create_abq), and of which options exclude each other: crates/abq_cli/src/args.rs:235-253,
   330, 389, 401-413.

   Simplifications: the texts of options, addresses, tokens, certificates and run ids are values of
   any types; files of certificates and keys are read without errors; what follows once the queue is
   found (asking it for its negotiator, starting an ephemeral queue, running the worker) is not
   part of this model (InstanceModel, WorkerModel). *)
From Verif Require Import Base.

Section Cli.
Context {Addr Token Access Bytes Id Text : Type}.

(* crates/abq_hosted/src/config.rs:36-41 *)
Inductive token_kind := Personal | Organization.

(* main.rs:69-92, 785-809: what the hosted API says for an access token and a run id. *)
Inductive api_config :=
| Success (queue : Addr) (token : Token) (cert : option Bytes) (kind : token_kind)
| Unsupported (usage_error : Text) (kind : token_kind).
Definition kind_of (a : api_config) : token_kind :=
  match a with Success _ _ _ k => k | Unsupported _ k => k end.

(* main.rs:94-114: the variables of the environment that tell a run id; [e_ci] is whether CI is set
   to something other than false. *)
Record environment := { e_abq_run_id : option Id; e_ci : bool; e_buildkite : option Id;
                        e_circle : option Id; e_github : option Id; e_mint : option Id }.

Definition or_else {A} (x y : option A) : option A := match x with Some _ => x | None => y end.

(* main.rs:228-248 *)
Definition inferred_run_id (e : environment) : option Id :=
  match e_abq_run_id e with
  | Some _ => None
  | None =>
      if negb (e_ci e) then None
      else or_else (or_else (or_else (e_buildkite e) (e_circle e)) (e_github e)) (e_mint e)
  end.

(* args.rs:254-390: the options of `abq test` that matter here; an option that can also be given by a
   variable of the environment is there however it was given. *)
Record options := { o_run_id : option Id; o_access_token : option Access; o_local : bool;
                    o_queue_addr : option Addr; o_token : option Token; o_tls_cert : option Bytes;
                    o_tls_key : option Bytes; o_retries : N; o_args : list Text }.

Definition given {A} (x : option A) : bool := match x with Some _ => true | None => false end.

(* args.rs:235-253, 266, 330: the groups of options that exclude each other, and what requires
   what; --retries is a u32, and there is at least one argument (args.rs:388-389). *)
Definition accepted (o : options) : bool :=
  negb (given (o_access_token o) && given (o_queue_addr o)) &&
  negb (given (o_tls_key o) && (given (o_access_token o) || given (o_queue_addr o))) &&
  negb (o_local o && given (o_queue_addr o)) &&
  (negb (given (o_tls_key o)) || given (o_tls_cert o)) &&
  N.ltb (o_retries o) (2 ^ 32) &&
  negb (match o_args o with [] => true | _ => false end).

(* main.rs:676-687 *)
Inductive queue_location := Remote (a : Addr) | Ephemeral (key : option Bytes) | NoQueue (why : Text).
Definition is_remote (q : queue_location) : bool := match q with Remote _ => true | _ => false end.

(* main.rs:669-674 *)
Record resolved := { r_token : option Token; r_cert : option Bytes; r_kind : option token_kind;
                     r_where : queue_location }.

(* main.rs:689-713; the note about the kind of token is left out of the text. *)
Definition resolve_with_api (a : api_config) : resolved :=
  match a with
  | Success q t c k => {| r_token := Some t; r_cert := c; r_kind := Some k; r_where := Remote q |}
  | Unsupported u k => {| r_token := None; r_cert := None; r_kind := Some k; r_where := NoQueue u |}
  end.

(* main.rs:715-733 *)
Definition resolve_from_cli (addr : option Addr) (key : option Bytes) (token : option Token) (cert : option Bytes) : resolved :=
  {| r_token := token; r_cert := cert; r_kind := None;
     r_where := match addr with Some a => Remote a | None => Ephemeral key end |}.

Definition is_personal (k : token_kind) : bool := match k with Personal => true | Organization => false end.

(* main.rs:744-765 *)
Definition resolve_config (o : options) (api : option api_config) (explicit : bool) : resolved :=
  let from_cli := resolve_from_cli (o_queue_addr o) (o_tls_key o) (o_token o) (o_tls_cert o) in
  match api with
  | Some a => if negb (is_personal (kind_of a)) || explicit then resolve_with_api a else from_cli
  | None => from_cli
  end.

Inductive refusal := NoApi | NoQueueToRunAgainst (why : Text) | RunIdButEphemeral | NoExecutable | OneOfCertAndKey | NoRunId.

(* main.rs:832-862 *)
Definition validate_queue_location (q : queue_location) (explicit : bool) : option refusal :=
  match q with
  | NoQueue why => Some (NoQueueToRunAgainst why)
  | _ => if explicit && negb (is_remote q) then Some RunIdButEphemeral else None
  end.

Inductive mode := Readonly | WriteNormal.

(* What is started: the run, the queue (at an address, or one of its own with or without TLS), what
   the client presents to it, and how the worker works. *)
Inductive queue_used := TheQueueAt (a : Addr) | OwnQueue (auth : option Token) (tls : option (Bytes * Bytes)).
Record started := { s_run_id : Id; s_queue : queue_used; s_token : option Token; s_cert : option Bytes;
                    s_mode : mode; s_max_run_number : N; s_telemetry : bool; s_command : Text * list Text }.

(* main.rs:864-918 *)
Definition find_or_create (q : queue_location) (token : option Token) (cert : option Bytes) : queue_used + refusal :=
  match q with
  | Remote a => inl (TheQueueAt a)
  | Ephemeral key =>
      match cert, key with
      | Some c, Some k => inl (OwnQueue token (Some (c, k)))
      | None, None => inl (OwnQueue token None)
      | _, _ => inr OneOfCertAndKey
      end
  | NoQueue why => inr (NoQueueToRunAgainst why)
  end.

(* main.rs:404-418, 525-533: the access token in use, and what the API says; the calls of the API
   are listed.  [stored] is what `abq login` left in the configuration file. *)
Definition ask_api (local : bool) (access stored : option Access) (api : Access -> Id -> option api_config) (r : Id) :
  list (Access * Id) * (option api_config + refusal) :=
  if local then ([], inl None) else
  match or_else access stored with
  | Some t => ([(t, r)], match api t r with Some a => inl (Some a) | None => inr NoApi end)
  | None => ([], inl None)
  end.

(* main.rs:391-497.  [unique] is the fresh run id (RunId::unique). *)
Definition test_command (e : environment) (stored : option Access) (api : Access -> Id -> option api_config) (unique : Id)
  (o : options) : list (Access * Id) * (started + refusal) :=
  let external := or_else (o_run_id o) (inferred_run_id e) in
  let explicit := given external && negb (o_local o) in
  let r := match external with Some r => r | None => unique end in
  let '(calls, answer) := ask_api (o_local o) (o_access_token o) stored api r in
  (calls,
   match answer with
   | inr no => inr no
   | inl a =>
       let res := resolve_config o a explicit in
       match validate_queue_location (r_where res) explicit with
       | Some no => inr no
       | None =>
           match o_args o with
           | [] => inr NoExecutable
           | cmd :: args =>
               match find_or_create (r_where res) (r_token res) (r_cert res) with
               | inr no => inr no
               | inl q =>
                   inl {| s_run_id := r; s_queue := q; s_token := r_token res; s_cert := r_cert res;
                          s_mode := match r_kind res with Some Personal => Readonly | _ => WriteNormal end;
                          s_max_run_number := ((1 + o_retries o) mod 2 ^ 32)%N;
                          s_telemetry := is_remote (r_where res);
                          s_command := (cmd, args) |}
               end
           end
       end
   end).

(* main.rs:511-563; of [options] only the run id, access token, queue address, token and
   certificate exist for `abq report`. *)
Definition report_command (e : environment) (stored : option Access) (api : Access -> Id -> option api_config) (o : options) :
  list (Access * Id) * ((Id * queue_used * option Token * option Bytes) + refusal) :=
  match or_else (o_run_id o) (inferred_run_id e) with
  | None => ([], inr NoRunId)
  | Some r =>
      let '(calls, answer) := ask_api false (o_access_token o) stored api r in
      (calls,
       match answer with
       | inr no => inr no
       | inl a =>
           let res := resolve_config o a true in
           match validate_queue_location (r_where res) true with
           | Some no => inr no
           | None =>
               match find_or_create (r_where res) (r_token res) (r_cert res) with
               | inr no => inr no
               | inl q => inl (r, q, r_token res, r_cert res)
               end
           end
       end)
  end.

End Cli.
Arguments api_config : clear implicits.
Arguments environment : clear implicits.
Arguments options : clear implicits.
Arguments started : clear implicits.
Arguments queue_used : clear implicits.
