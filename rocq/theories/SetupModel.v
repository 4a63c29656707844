(* How `abq test` sets up the runners of a worker: how many there are, what each is told of
   itself and of the run, and what the processes it starts find in their environment.
   abq_cli/src/args.rs:28-48, abq_cli/src/main.rs:454-459 and 811-830,
   abq_workers/src/negotiate.rs:206-302 and 325-382, abq_workers/src/workers.rs:137-226,
   abq_workers/src/runner_strategy.rs:82-180, abq_utils/src/net_protocol.rs:361-377,
   abq_runners/generic_test_runner/src/lib.rs:688-727.
   Not modelled: the threads the runners live on (PoolModel.v) and what they do with what they
   are told (NativeModel.v, FetchModel.v, RunnerModel.v). *)
From Coq Require Import String Ascii NArith List Bool Arith DecimalString.
From Verif Require Import Base NativeModel.
From Verif Require RunModel.
Import ListNotations.
Open Scope string_scope.

(* ---- how many runners ---- *)

(* args.rs:28-32; NonZeroUsize is a number that is not 0 *)
Inductive num_runners := CpuCores | Fixed (n : N).

(* char::to_digit(10), used by usize::from_str *)
Definition to_digit (c : ascii) : option N :=
  let n := N_of_ascii c in if (48 <=? n)%N && (n <=? 57)%N then Some (n - 48)%N else None.
(* the loop of usize::from_str: checked_mul, checked_add; a usize has 64 bits *)
Fixpoint digits (acc : N) (s : string) : option N :=
  match s with
  | "" => Some acc
  | String c s' =>
      match to_digit c with
      | Some d => let acc' := (acc * 10 + d)%N in if (acc' <? 2 ^ 64)%N then digits acc' s' else None
      | None => None
      end
  end.
(* NonZeroUsize::from_str: usize::from_str, then NonZeroUsize::new.  A leading + is allowed, an
   empty text is not, nor is a + alone *)
Definition parse_nonzero (s : string) : option N :=
  let body := match s with String "+" s' => s' | _ => s end in
  match body with
  | "" => None
  | _ => match digits 0 body with Some n => if (n =? 0)%N then None else Some n | None => None end
  end.
(* args.rs:34-48 *)
Definition parse_num (s : string) : option num_runners :=
  if String.eqb s "cpu-cores" then Some CpuCores
  else match parse_nonzero s with Some n => Some (Fixed n) | None => None end.
(* main.rs:454-459; [physical]: num_cpus::get_physical(), at least 1 *)
Definition runners_to_start (physical : N) (num : num_runners) : N :=
  match num with CpuCores => N.max (physical - 1) 1 | Fixed n => n end.

(* ---- what a runner is set up with ---- *)

(* to_string of a number *)
Definition dec (n : N) : string := NilEmpty.string_of_uint (N.to_uint n).
(* `as u32` *)
Definition as_u32 (n : N) : N := (n mod 2 ^ 32)%N.

(* test_fetching.rs: SourcingStrategy *)
Inductive source := RetryManifest | Queue.
(* runner_strategy.rs:94-100 *)
Definition sourcing (k : RunModel.assigned_kind) : list source :=
  match k with RunModel.Fresh _ => [Queue] | RunModel.RetryAndContinue => [RetryManifest; Queue] end.
(* negotiate.rs:264-269 *)
Definition some_runner_should_generate_manifest (k : RunModel.assigned_kind) : bool :=
  match k with RunModel.Fresh b => b | RunModel.RetryAndContinue => false end.

(* what a worker knows when it starts its pool: its number (u32, args.rs:258), the number of
   runners, what it was assigned, whether reporters write to standard output, whether results
   are for the queue, and the environment it was itself started with *)
Record config := { c_worker : N; c_runners : nat; c_assigned : RunModel.assigned_kind; c_stdout : bool;
                   c_send_results : bool; c_env : list (string * string) }.

(* workers.rs:173-214 with RunnerMeta (abq_utils/src/net_protocol.rs:123-143) and RunnerStrategy
   (runner_strategy.rs:30-38): the entity's tag; alone on the worker; reporters write to
   standard output; whether the manifest is asked of it; where its tests come from; whether it
   sends its results; and what its processes are started with.  The random id of the entity,
   shared by all that the runner sends, is left out *)
Record runner := { r_tag : tag; r_singleton : bool; r_stdout : bool; r_manifest : bool;
                   r_sources : list source; r_sends : bool; r_params : params }.

(* main.rs:811-830 *)
Definition given_env : list (string * string) := [("FORCE_COLOR", "1")].
(* net_protocol.rs:361-377 *)
Definition set_abq_runner_env_var (i : nat) (env : list (string * string)) : list (string * string) :=
  ("ABQ_RUNNER", dec (N.of_nat i)) :: env.
(* net_protocol.rs:201-203 with workers.rs:174 *)
Definition entity_runner (worker : N) (i : nat) : tag := TRunner (N.to_nat worker) (N.to_nat (as_u32 (N.of_nat i))).

(* workers.rs:164-214 *)
Definition set_up (c : config) (i : nat) : runner :=
  {| r_tag := entity_runner (c_worker c) i;
     r_singleton := Nat.eqb (c_runners c) 1;
     r_stdout := c_stdout c;
     r_manifest := some_runner_should_generate_manifest (c_assigned c) && Nat.eqb i 1;
     r_sources := sourcing (c_assigned c);
     r_sends := c_send_results c;
     r_params := {| p_inherited := c_env c; p_extra := set_abq_runner_env_var i given_env; p_worker := dec (c_worker c) |} |}.
(* workers.rs:164 *)
Definition pool (c : config) : list runner := map (set_up c) (seq 1 (c_runners c)).

(* negotiate.rs:336: the worker asks the queue as its first runner *)
Definition asks_as (worker : N) : tag := entity_runner worker 1.
