(* Model of the pool of runners of one worker: how it ends and how its end is awaited.
   crates/abq_workers/src/workers.rs:137-360, crates/abq_workers/src/liveness.rs and the
   exit of the worker process, crates/abq_cli/src/workers.rs:119-264.
   Outputs are byte strings; exit codes (i32) are integers; error texts are strings of
   bytes.  Reporting is left out; telemetry is in TellModel. *)
From Verif Require Import Base.
From Coq Require Import ZArith.
Local Open Scope Z_scope.

Definition text := list nat.
(* capture_output.rs (StdioOutput) *)
Record stdio := { so_out : text; so_err : text }.

(* crates/abq_runners/generic_test_runner/src/lib.rs (TestRunnerExit, GenericRunnerError):
   how a runner's task ended; [info] stands for the native runner's description *)
Inductive runner_exit (info : Type) :=
| ROk (exit_code : Z) (manifest_output : option text) (final : stdio) (process : text) (i : option info)
| RErr (error : text) (output : stdio) (i : option info).
Arguments ROk {info}. Arguments RErr {info}.

(* workers.rs:104-110 *)
Inductive status := Completed (code : Z) | Errored (errors : list text).
(* workers.rs:116-125; a runner is named by its number, from 1 *)
Record pool_exit (info : Type) := {
  x_status : status;
  x_info : option info;
  x_manifest_output : option (nat * text);
  x_final : list (nat * stdio);
  x_process : list (nat * text)
}.
Arguments x_status {info}. Arguments x_info {info}. Arguments x_manifest_output {info}. Arguments x_final {info}. Arguments x_process {info}.

(* the variables of the loop, workers.rs:258-264 *)
Record acc (info : Type) := {
  a_errors : list text; a_code : Z; a_final : list (nat * stdio); a_process : list (nat * text);
  a_manifest : option (nat * text); a_info : option info
}.
Arguments a_errors {info}. Arguments a_code {info}. Arguments a_final {info}. Arguments a_process {info}. Arguments a_manifest {info}. Arguments a_info {info}.

(* Option::or *)
Definition or {A} (a b : option A) : option A := match a with Some _ => a | None => b end.
Definition newline : nat := 10.
(* workers.rs:321-333 *)
Definition combined (o : stdio) : text :=
  (match so_out o with [] => [] | t => t ++ [newline] end) ++ (match so_err o with [] => [] | t => t ++ [newline] end).

(* workers.rs:265-340: one turn of the loop.  The maximum is taken of the exit code
   with itself (:294), and the output of the manifest's generation is overwritten (:288) *)
Definition pool_step {info} (a : acc info) (id : nat) (r : runner_exit info) : acc info :=
  match r with
  | ROk code manifest final process i =>
      {| a_errors := a_errors a; a_code := Z.max code code; a_final := a_final a ++ [(id, final)]; a_process := a_process a ++ [(id, process)];
         a_manifest := match manifest with Some o => Some (id, o) | None => None end; a_info := or (a_info a) i |}
  | RErr e output i =>
      {| a_errors := a_errors a ++ [e]; a_code := a_code a; a_final := a_final a ++ [(id, output)]; a_process := a_process a ++ [(id, combined output)];
         a_manifest := a_manifest a; a_info := or (a_info a) i |}
  end.
Fixpoint pool_loop {info} (a : acc info) (id : nat) (rs : list (runner_exit info)) : acc info :=
  match rs with
  | [] => a
  | r :: rs' => pool_loop (pool_step a id r) (S id) rs'
  end.
Definition pool_init {info} : acc info :=
  {| a_errors := []; a_code := 0; a_final := []; a_process := []; a_manifest := None; a_info := None |}.

(* workers.rs:243-360; the runners' ends in the order of their numbers (:157, :191) *)
Definition shutdown {info} (rs : list (runner_exit info)) : pool_exit info :=
  let a := pool_loop pool_init 1 rs in
  {| x_status := match a_errors a with [] => Completed (a_code a) | es => Errored es end;
     x_info := a_info a; x_manifest_output := a_manifest a; x_final := a_final a; x_process := a_process a |}.

(* workers.rs:173-179: which runner generates the manifest *)
Definition should_generate_manifest (some_runner_should : bool) (runner_id : nat) : bool := some_runner_should && Nat.eqb runner_id 1.

(* crates/abq_utils/src/exit.rs:10-13 *)
Definition SUCCESS := 0. Definition FAILURE := 1. Definition CANCELLED := 1. Definition ABQ_ERROR := 101.
(* abq_cli/src/workers.rs:205-218: the exit code of the worker process, from the suggested
   exit code of the suite *)
Definition worker_exit_code (st : status) (suite : Z) : Z :=
  match st with Completed code => Z.max suite code | Errored _ => ABQ_ERROR end.

(* ---- liveness.rs ---- *)

Local Open Scope nat_scope.
(* what the holder of a clone of the signaler did: nothing yet, completed(), or dropped it
   (its task was aborted) *)
Inductive holder := Holding | Signalled | Dropped.
(* the spawned handler, liveness.rs:24-41 *)
Inductive handler := HLoop | HSend | HSent | HDone | HPanic.
(* what a poll of wait comes to.  A oneshot::Receiver whose sender was dropped gives an error,
   which wait unwraps; a Receiver or a JoinHandle that is polled after it has given its
   value panics. *)
Inductive waited := WaitPending | WaitReturned | WaitPanicked.

Record live := {
  l_holders : list holder;      (* one clone for each runner, workers.rs:162-165 *)
  l_original : bool;            (* the signaler [new] returned is not dropped *)
  l_queue : nat;                (* messages in the channel *)
  l_count : Z;                  (* the AtomicUsize *)
  l_handler : handler;
  l_sent : bool;                (* tx_all_completed.send was called *)
  l_rx : bool; l_handle : bool; (* the options in LiveCount are Some *)
  l_taken : bool; l_joined : bool; (* the receiver, and the handle, have given their value *)
  l_waited : list waited        (* ghost: what each poll of wait came to *)
}.

(* liveness.rs:17-52 *)
Definition live_new (count : nat) : live :=
  {| l_holders := repeat Holding count; l_original := true; l_queue := 0; l_count := Z.of_nat count; l_handler := HLoop;
     l_sent := false; l_rx := true; l_handle := true; l_taken := false; l_joined := false; l_waited := [] |}.

Inductive levent :=
| Signal (i : nat)     (* runner i: completed().await, workers.rs:405 *)
| Drop (i : nat)       (* runner i's signaler is dropped *)
| DropOriginal         (* the end of WorkerPool::new *)
| Handle               (* the handler goes on to its next await *)
| Wait.                (* a poll of wait(); a dropped call leaves the state as it is *)

Definition set_live (s : live) (hs : list holder) (orig : bool) (q : nat) (c : Z) (h : handler) (sent : bool) : live :=
  {| l_holders := hs; l_original := orig; l_queue := q; l_count := c; l_handler := h; l_sent := sent;
     l_rx := l_rx s; l_handle := l_handle s; l_taken := l_taken s; l_joined := l_joined s; l_waited := l_waited s |}.
Definition set_wait (s : live) (rx handle taken joined : bool) (said : waited) : live :=
  {| l_holders := l_holders s; l_original := l_original s; l_queue := l_queue s; l_count := l_count s; l_handler := l_handler s;
     l_sent := l_sent s; l_rx := rx; l_handle := handle; l_taken := taken; l_joined := joined;
     l_waited := l_waited s ++ [said] |}.

Definition is_holding (h : holder) : bool := match h with Holding => true | _ => false end.
Definition senders (s : live) : bool := l_original s || existsb is_holding (l_holders s).
Definition usize (z : Z) : Z := (z mod 2 ^ 64)%Z.

(* liveness.rs:24-41 *)
Definition handle (s : live) : live :=
  match l_handler s with
  | HLoop =>
      match l_queue s with
      | S q => set_live s (l_holders s) (l_original s) q (usize (l_count s - 1)) (if Z.eqb (l_count s) 1 then HSend else HLoop) (l_sent s)
      | 0 => if senders s then s else set_live s (l_holders s) (l_original s) 0 (l_count s) HPanic (l_sent s)
      end
  | HSend => set_live s (l_holders s) (l_original s) (l_queue s) (l_count s) HSent true
  | HSent => set_live s (l_holders s) (l_original s) (l_queue s) (l_count s) HDone (l_sent s)
  | HDone | HPanic => s
  end.

(* liveness.rs:63-68 *)
Definition join (s : live) (rx taken : bool) : live :=
  if l_handle s
  then match l_handler s with
       | HDone => if l_joined s then set_wait s rx true taken true WaitPanicked else set_wait s rx false taken true WaitReturned
       | HPanic => set_wait s rx true taken true WaitPanicked
       | HLoop | HSend | HSent => set_wait s rx true taken (l_joined s) WaitPending
       end
  else set_wait s rx false taken (l_joined s) WaitReturned.
(* liveness.rs:56-69 *)
Definition wait (s : live) : live :=
  if l_rx s
  then if l_taken s then set_wait s true (l_handle s) true (l_joined s) WaitPanicked
       else if l_sent s then join s false true
       else match l_handler s with
            | HPanic => set_wait s true (l_handle s) true (l_joined s) WaitPanicked
            | HLoop | HSend | HSent | HDone => set_wait s true (l_handle s) false (l_joined s) WaitPending
            end
  else join s false (l_taken s).

Definition lstep (s : live) (e : levent) : live :=
  match e with
  | Signal i =>
      match nth_error (l_holders s) i with
      | Some Holding =>
          (* the receiver is gone once the handler has returned; then send fails *)
          match l_handler s with
          | HLoop => if Nat.ltb (l_queue s) (length (l_holders s))
                     then set_live s (upd i Signalled (l_holders s)) (l_original s) (S (l_queue s)) (l_count s) (l_handler s) (l_sent s)
                     else s (* the channel is full: blocked *)
          | _ => set_live s (upd i Signalled (l_holders s)) (l_original s) (l_queue s) (l_count s) (l_handler s) (l_sent s)
          end
      | _ => s
      end
  | Drop i =>
      match nth_error (l_holders s) i with
      | Some Holding => set_live s (upd i Dropped (l_holders s)) (l_original s) (l_queue s) (l_count s) (l_handler s) (l_sent s)
      | _ => s
      end
  | DropOriginal => set_live s (l_holders s) false (l_queue s) (l_count s) (l_handler s) (l_sent s)
  | Handle => handle s
  | Wait => wait s
  end.
