(* Small utilities: VecMap, backoff, retries, requests to the hosted API.
   crates/abq_utils/src/{vec_map,decay,retry}.rs, crates/abq_hosted/src/config.rs. *)
From Verif Require Import Base AuthModel.
From Coq Require Import NArith.

(* ------------------------------------------------------------------ *)
(* VecMap                                                               *)

Section vec_map.
Context {K V : Type}.
Variable keqb : K -> K -> bool.   (* the key type's Eq *)

(* Iterator::position, vec_map.rs:32, 50 *)
Fixpoint position (k : K) (l : list (K * V)) : option nat :=
  match l with
  | [] => None
  | (k', _) :: t => if keqb k' k then Some 0 else option_map S (position k t)
  end.

(* vec_map.rs:31-45 (insert) *)
Definition vm_insert (k : K) (v : V) (l : list (K * V)) : list (K * V) * option V :=
  match position k l with
  | Some i => (upd i (k, v) l, option_map snd (nth_error l i))
  | None => (l ++ [(k, v)], None)
  end.

(* Vec::swap_remove, vec_map.rs:51: the last element takes the place of the removed one *)
Definition swap_remove {A} (i : nat) (l : list A) : list A :=
  match rev l with
  | [] => []
  | last :: _ => removelast (upd i last l)
  end.

(* vec_map.rs:47-52 (remove) *)
Definition vm_remove (k : K) (l : list (K * V)) : list (K * V) * option V :=
  match position k l with
  | Some i => (swap_remove i l, option_map snd (nth_error l i))
  | None => (l, None)
  end.

(* vec_map.rs:54-56 (get) *)
Definition vm_get (k : K) (l : list (K * V)) : option V :=
  option_map snd (find (fun p => keqb (fst p) k) l).

(* vec_map.rs:58-60 (contains) *)
Definition vm_contains (k : K) (l : list (K * V)) : bool := existsb (fun p => keqb (fst p) k) l.

(* vec_map.rs:77-87 (from_iter) *)
Definition vm_from_iter (ps : list (K * V)) : list (K * V) :=
  fold_left (fun m p => fst (vm_insert (fst p) (snd p) m)) ps [].

(* the public operations: 23-65; iter and into_iter (62-64, 67-75) list the vector *)
Inductive vm_op := OpInsert (k : K) (v : V) | OpRemove (k : K) | OpGet (k : K) | OpContains (k : K) | OpLen | OpIsEmpty | OpIter.
Inductive vm_ans := AnsValue (v : option V) | AnsBool (b : bool) | AnsNum (n : nat) | AnsList (l : list (K * V)).

Definition vm_step (l : list (K * V)) (o : vm_op) : list (K * V) * vm_ans :=
  match o with
  | OpInsert k v => let '(l', old) := vm_insert k v l in (l', AnsValue old)
  | OpRemove k => let '(l', old) := vm_remove k l in (l', AnsValue old)
  | OpGet k => (l, AnsValue (vm_get k l))
  | OpContains k => (l, AnsBool (vm_contains k l))
  | OpLen => (l, AnsNum (length l))
  | OpIsEmpty => (l, AnsBool (match l with [] => true | _ => false end))
  | OpIter => (l, AnsList l)
  end.

Fixpoint vm_run (l : list (K * V)) (os : list vm_op) : list (K * V) * list vm_ans :=
  match os with
  | [] => (l, [])
  | o :: os' => let '(l', a) := vm_step l o in let '(l'', r) := vm_run l' os' in (l'', a :: r)
  end.
End vec_map.

(* ------------------------------------------------------------------ *)
(* Exponential backoff                                                  *)

(* core::time::Duration::MAX in nanoseconds: u64::MAX seconds and 999999999 ns *)
Definition DURATION_MAX : N := 2 ^ 64 * 1000000000 - 1.

(* decay.rs:5-9; durations in nanoseconds *)
Record exp_decay := { ed_duration : N; ed_multiplier : N; ed_max : N }.

(* decay.rs:12-18 (constant), 21-27 (quadratic) *)
Definition ed_constant (d : N) : exp_decay := {| ed_duration := d; ed_multiplier := 1; ed_max := d |}.
Definition ed_quadratic (start max : N) : exp_decay := {| ed_duration := start; ed_multiplier := 2; ed_max := max |}.

(* decay.rs:29-33 (next_duration); None: the multiplication panics on overflow *)
Definition next_duration (e : exp_decay) : option (N * exp_decay) :=
  let m := (ed_duration e * ed_multiplier e)%N in
  if (DURATION_MAX <? m)%N then None
  else Some (ed_duration e,
             {| ed_duration := N.min (ed_max e) m; ed_multiplier := ed_multiplier e; ed_max := ed_max e |}).

(* decay.rs:36-42 (Iterator): the first n delays *)
Fixpoint delays (n : nat) (e : exp_decay) : option (list N) :=
  match n with
  | 0 => Some []
  | S n' => match next_duration e with
            | None => None
            | Some (d, e') => option_map (cons d) (delays n' e')
            end
  end.

(* ------------------------------------------------------------------ *)
(* Retries                                                              *)

Section retry.
Context {R E : Type}.

(* what retry_n does: the attempt numbers handed to the operation, the sleeps, and the result
   (None: the model's fuel ran out) *)
Record retried := { rt_attempts : list nat; rt_sleeps : nat; rt_result : option (R + E) }.

(* retry.rs:34-49 and 12-27, the loop of retry_n and async_retry_n from a given attempt;
   the operation's answer may depend on the attempt number in any way *)
Fixpoint retry_loop (fuel attempt max_attempts : nat) (operation : nat -> R + E) : retried :=
  match fuel with
  | 0 => {| rt_attempts := []; rt_sleeps := 0; rt_result := None |}
  | S f =>
      let attempt := S attempt in
      match operation attempt with
      | inl v => {| rt_attempts := [attempt]; rt_sleeps := 0; rt_result := Some (inl v) |}
      | inr e =>
          if max_attempts <=? attempt
          then {| rt_attempts := [attempt]; rt_sleeps := 0; rt_result := Some (inr e) |}
          else let r := retry_loop f attempt max_attempts operation in
               {| rt_attempts := attempt :: rt_attempts r; rt_sleeps := S (rt_sleeps r); rt_result := rt_result r |}
      end
  end.

(* retry.rs:3-28 (async_retry_n), 30-50 (retry_n) *)
Definition retry_n (fuel max_attempts : nat) (operation : nat -> R + E) : retried :=
  retry_loop fuel 0 max_attempts operation.
End retry.

(* ------------------------------------------------------------------ *)
(* The hosted API                                                       *)

(* a reply: its status code and its body *)
Record reply (B : Type) := { rp_status : nat; rp_body : B }.
Arguments rp_status {B}. Arguments rp_body {B}.

(* http::StatusCode::is_success, is_server_error, TOO_MANY_REQUESTS *)
Definition is_success (s : nat) : bool := (200 <=? s) && (s <? 300).
Definition is_server_error (s : nat) : bool := (500 <=? s) && (s <? 600).
Definition TOO_MANY_REQUESTS : nat := 429.

(* config.rs:154-156; the decay in seconds *)
Definition DEFAULT_REQUEST_ATTEMPTS : nat := 6.
Definition DEFAULT_REQUEST_DECAY : N := 5.
Definition DEFAULT_REQUEST_DECAY_MUL : N := 2.

Section hosted.
Context {B E : Type}.

(* what is observed of a request: attempts made, seconds slept before each retry, and the
   outcome (None: the model's fuel ran out) *)
Record sent := { sn_attempts : nat; sn_sleeps : list N; sn_outcome : option (reply B + E) }.

(* config.rs:189-218 (send_request_with_decay_help) with 158-171 (build_retrier): the loop from
   a given last_attempt and decay.  [server i] is what happens to the i-th request: a reply, or
   a transport error, which `?` returns at once (197). *)
Fixpoint send_loop (fuel last_attempt max_attempts : nat) (decay mul : N) (server : nat -> reply B + E) : sent :=
  match fuel with
  | 0 => {| sn_attempts := last_attempt; sn_sleeps := []; sn_outcome := None |}
  | S f =>
      let last_attempt := S last_attempt in
      match server last_attempt with
      | inr e => {| sn_attempts := last_attempt; sn_sleeps := []; sn_outcome := Some (inr e) |}
      | inl r =>
          let give := {| sn_attempts := last_attempt; sn_sleeps := []; sn_outcome := Some (inl r) |} in
          if is_success (rp_status r) then give
          else if is_server_error (rp_status r) || Nat.eqb (rp_status r) TOO_MANY_REQUESTS
          then if Nat.eqb last_attempt max_attempts then give
               else let s := send_loop f last_attempt max_attempts (decay * mul) mul server in
                    {| sn_attempts := sn_attempts s; sn_sleeps := decay :: sn_sleeps s; sn_outcome := sn_outcome s |}
          else give
      end
  end.

(* config.rs:175-187 (send_request_with_decay) *)
Definition send_request_with_decay (fuel : nat) (server : nat -> reply B + E) : sent :=
  send_loop fuel 0 DEFAULT_REQUEST_ATTEMPTS DEFAULT_REQUEST_DECAY DEFAULT_REQUEST_DECAY_MUL server.
End hosted.
Arguments sent : clear implicits.

(* config.rs:43-59: a decoded body.  The URL is what is used of it: the socket addresses it
   resolves to (None: resolution failed) and its query pairs, in order. *)
Inductive hosted_response :=
| HSuccess (addrs : option (list nat)) (queries : list (list nat * list nat)) (cert : option (list nat)) (kind : nat)
| HUnsupported (kind : nat) (usage_error : list nat).

(* config.rs:15-33 *)
Inductive hosted_config :=
| CfgSuccess (addr : nat) (run_id token : list nat) (cert : option (list nat)) (kind : nat)
| CfgUnsupported (kind : nat) (usage_error : list nat).

(* error.rs: the variants from_api itself makes *)
Inductive hosted_error := ESchema | EOther.

(* config.rs:114: query_pairs().collect() into a HashMap, then get: the last pair with the key *)
Definition query_get (k : list nat) (qs : list (list nat * list nat)) : option (list nat) :=
  option_map snd (find (fun p => bytes_eqb (fst p) k) (rev qs)).

Definition key_token : list nat := [116; 111; 107; 101; 110].          (* "token", config.rs:117 *)
Definition key_run_id : list nat := [114; 117; 110; 95; 105; 100].     (* "run_id", config.rs:125 *)

(* config.rs:96-149 (the end of from_api) *)
Definition from_api_response (run_id : list nat) (r : hosted_response) : hosted_config + hosted_error :=
  match r with
  | HSuccess addrs queries cert kind =>
      match addrs with
      | Some [one] =>
          match query_get key_token queries with
          | None => inr ESchema
          | Some token_str =>
              match parse_user token_str with
              | None => inr ESchema
              | Some token =>
                  match query_get key_run_id queries with
                  | None => inr ESchema
                  | Some resolved =>
                      if bytes_eqb run_id resolved
                      then inl (CfgSuccess one resolved token cert kind)
                      else inr EOther
                  end
              end
          end
      | _ => inr ESchema
      end
  | HUnsupported kind e => inl (CfgUnsupported kind e)
  end.
