(* Model of what ABQ's command line says to the hosted service, request by request, and of how the
   end of `abq test` depends on it: crates/abq_hosted/src/notify.rs:8-102 (what is told at the end
   of a worker), crates/abq_hosted/src/config.rs:63-91 (the request for a queue),
   crates/abq_hosted/src/access_token.rs:9-29, crates/abq_cli/src/workers.rs:38-44, 139-236 (the end
   of the process), crates/abq_cli/src/main.rs:404-421, 472-478, 782-784 (what it is told with).

   The url and reqwest crates (2.3.1, 0.11.15) are dependencies; of them is modelled, as documented:
   a URL is what comes before its path, its path, its query and its fragment; path segments and
   query pairs are appended; a header's value that has other bytes than those allowed makes the
   request invalid, and an invalid request cannot be cloned; a client has no timeout unless it is
   given one.  Whether a text is a URL with a path is an input ([parse]), and so is what the service
   does.  Redirects are followed by reqwest and not seen here; logging is left out.  Texts are byte
   strings.  How often a queue is asked for is modelled in UtilModel (C55). *)
From Coq Require Import String Ascii.
From Verif Require Import Base JsonModel CliModel PoolModel WorkerModel.
From Coq Require Import ZArith.
Import ListNotations.
Local Open Scope list_scope.

Definition lit (s : string) : list nat := map nat_of_ascii (list_ascii_of_string s).

(* ---- URLs (crate url 2.3.1) ---- *)
Record url := { u_start : list nat; u_path : list nat; u_query : option (list nat); u_fragment : option (list nat) }.

(* Url::path_segments_mut and PathSegmentsMut::push, for a segment of letters and underscores: a slash comes before it
   unless the path is a single slash *)
Definition push (seg : list nat) (u : url) : url :=
  {| u_start := u_start u;
     u_path := u_path u ++ (if Nat.eqb (List.length (u_path u)) 1 then [] else [47]) ++ seg;
     u_query := u_query u; u_fragment := u_fragment u |}.

(* form_urlencoded::byte_serialize *)
Definition unreserved (b : nat) : bool :=
  ((48 <=? b) && (b <=? 57)) || ((65 <=? b) && (b <=? 90)) || ((97 <=? b) && (b <=? 122)) ||
  existsb (Nat.eqb b) [42; 45; 46; 95].
Definition hex_upper (n : nat) : nat := if n <? 10 then 48 + n else 55 + n.
Definition form_byte (b : nat) : list nat :=
  if unreserved b then [b] else if b =? 32 then [43] else [37; hex_upper (b / 16); hex_upper (b mod 16)].
Definition form_encode (t : list nat) : list nat := flat_map form_byte t.

(* RequestBuilder::query with one pair: appended to the pairs that are there *)
Definition add_pair (k v : list nat) (u : url) : url :=
  {| u_start := u_start u; u_path := u_path u;
     u_query := Some ((match u_query u with Some ((_ :: _) as q) => q ++ [38] | _ => [] end) ++ form_encode k ++ [61] ++ form_encode v);
     u_fragment := u_fragment u |}.

(* ---- requests ---- *)
Inductive method := GET | POST.
Record request := { q_method : method; q_url : url; q_headers : list (list nat * list nat); q_body : option (list nat) }.

(* http::HeaderValue::from_bytes *)
Definition header_byte (b : nat) : bool := ((32 <=? b) && negb (b =? 127)) || (b =? 9).
Definition header_ok (v : list nat) : bool := forallb header_byte v.

(* RequestBuilder::bearer_auth and header: a request with an invalid value is an error (None) from then on *)
Definition with_header (k v : list nat) (r : option request) : option request :=
  match r with
  | Some q => if header_ok v
              then Some {| q_method := q_method q; q_url := q_url q; q_headers := q_headers q ++ [(k, v)]; q_body := q_body q |}
              else None
  | None => None
  end.
(* RequestBuilder::json *)
Definition with_json (j : json) (r : option request) : option request :=
  match with_header (lit "content-type") (lit "application/json") r with
  | Some q => Some {| q_method := q_method q; q_url := q_url q; q_headers := q_headers q; q_body := Some (write j) |}
  | None => None
  end.
Definition plain (m : method) (u : url) : option request :=
  Some {| q_method := m; q_url := u; q_headers := []; q_body := None |}.
Definition bearer (token : list nat) : list nat := lit "Bearer " ++ token.

Section Hosted.
Context (parse : list nat -> option url).   (* None: no URL, or one without a path *)
Context (version : list nat).               (* abq_utils::VERSION *)
Definition user_agent : list nat := lit "abq/" ++ version.

(* config.rs:71-91: the request for the queue of a run; None: the URL is invalid, Some None: the request is *)
Definition ask (api_url token run_id : list nat) : option (option request) :=
  match parse api_url with
  | None => None
  | Some u =>
      Some (match with_header (lit "user-agent") user_agent
                    (with_header (lit "authorization") (bearer token) (plain GET (push (lit "queue") u))) with
            | Some q => Some {| q_method := q_method q; q_url := add_pair (lit "run_id") run_id (q_url q); q_headers := q_headers q; q_body := q_body q |}
            | None => None
            end)
  end.

(* runners/v0_2.rs:19-29 *)
Record spec := { n_name : list nat; n_version : list nat; n_framework : list nat; n_framework_version : list nat;
                 n_language : list nat; n_language_version : list nat; n_host : list nat }.

(* notify.rs:8-19, 62-69 *)
Definition body_of (run_id : list nat) (s : spec) : json :=
  JObj [(lit "run_id", JStr run_id);
        (lit "native_runner_specification",
         JObj [(lit "name", JStr (n_name s)); (lit "version", JStr (n_version s)); (lit "host", JStr (n_host s))])].

(* notify.rs:50-76 *)
Definition build_tell (u : url) (token run_id : list nat) (s : spec) : option request :=
  with_json (body_of run_id s)
    (with_header (lit "user-agent") user_agent
       (with_header (lit "authorization") (bearer token) (plain POST (push (lit "record_test_run") u)))).

(* What the service does about a request: answer with a status, fail (the connection cannot be made, or breaks), or
   never answer. *)
Inductive reply := Answer (status : nat) | NoAnswer | Silent.
(* http::StatusCode::is_success *)
Definition is_success (s : nat) : bool := (200 <=? s) && (s <? 300).

Inductive told := TDone (status : nat) | TFailed | TPanics | THangs.

(* notify.rs:86-102, from a turn on: [left] is tries - i, the turns left (at least one, as it is called with two);
   [i] is i of the turn *)
Fixpoint try_loop (left i : nat) (r : option request) (service : nat -> reply) : list request * told :=
  match left with
  | 0 => ([], TFailed)                       (* not reached *)
  | S left' =>
      match r with
      | None => ([], TPanics)                (* try_clone().expect *)
      | Some q =>
          match service i with
          | Silent => ([q], THangs)
          | NoAnswer => ([q], TFailed)
          | Answer s => if is_success s || (left' =? 0) then ([q], TDone s)
                        else let '(qs, t) := try_loop left' (S i) r service in (q :: qs, t)
          end
      end
  end.
(* notify.rs:30 *)
Definition ATTEMPTS : nat := 2.

(* notify.rs:21-84; the outcome is only logged *)
Definition record_metadata (api_url token run_id : list nat) (s : spec) (service : nat -> reply) : list request * told :=
  match parse api_url with
  | None => ([], TFailed)
  | Some u => try_loop ATTEMPTS 1 (build_tell u token run_id s) service
  end.

(* abq_cli/src/workers.rs:38-44 *)
Record metadata := { m_api_url : list nat; m_access : option (list nat); m_run_id : list nat; m_record : bool }.

Inductive process_end := Exits (code : Z) | NeverExits.

(* abq_cli/src/workers.rs:223-235 *)
Definition finish (m : metadata) (code : Z) (info : option spec) (service : nat -> reply) : list request * process_end :=
  if m_record m then
    match m_access m, info with
    | Some token, Some s =>
        let '(qs, t) := record_metadata (m_api_url m) token (m_run_id m) s service in
        (qs, match t with THangs => NeverExits | TPanics => Exits ABQ_ERROR | _ => Exits code end)
    | _, _ => ([], Exits code)
    end
  else ([], Exits code).

(* negotiate.rs:154-174: how the workers ended, with what is known of the native runner *)
Definition workers_exit (n : negotiated) (rs : list (runner_exit spec)) : pool_exit spec :=
  match n with
  | Redundant code => {| x_status := Completed code; x_info := None; x_manifest_output := None; x_final := []; x_process := [] |}
  | NCancelled r => {| x_status := Errored [cancel_text r]; x_info := None; x_manifest_output := None; x_final := []; x_process := [] |}
  | Pool _ _ => shutdown rs
  end.

(* abq_cli/src/workers.rs:139-236: what is said to the service at the end of a worker's process, and how it ends *)
Definition end_of_worker (m : metadata) (n : negotiated) (rs : list (runner_exit spec)) (p : report)
  (service : nat -> reply) : list request * process_end :=
  let x := workers_exit n rs in
  finish m (worker_exit_code (x_status x) (Z.of_nat (p_suite p))) (x_info x) service.

(* ---- `abq test` ---- *)
Context {Addr Token Bytes Text : Type}.

(* main.rs:782-784; [v] is the variable ABQ_API *)
Definition DEFAULT_API : list nat := lit "https://cloud.rwx.com/abq/api".
Definition api_base (v : option (list nat)) : list nat := match v with Some t => t | None => DEFAULT_API end.

(* main.rs:404-421, 472-478 *)
Definition metadata_of (v stored : option (list nat)) (o : @options Addr Token (list nat) Bytes (list nat) Text)
  (s : @started Addr Token Bytes (list nat) Text) : metadata :=
  {| m_api_url := api_base v;
     m_access := if o_local o then None else or_else (o_access_token o) stored;
     m_run_id := s_run_id s; m_record := s_telemetry s |}.
End Hosted.
