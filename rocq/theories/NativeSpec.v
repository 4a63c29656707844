(* The vocabulary of C77: what can be read off the record of what a runner asked and was
   answered. *)
From Coq Require Import List Arith Bool String ZArith Lia.
From Verif Require Import NativeModel.
Import ListNotations.
Open Scope string_scope.

(* the processes that were started, in order *)
Definition ev_started (x : event) : list nat := match x with Ev (Spawn p _) true => [p] | _ => [] end.
Definition started (h : list event) : list nat := flat_map ev_started h.

(* the process has gone: it was waited for, or killed *)
Definition gone (p : nat) (h : list event) : bool := existsb (ends p) h.
(* the exit statuses of a process *)
Definition ev_status (p : nat) (x : event) : list (option Z) :=
  match x with Ev (Wait q) (Some st) => if Nat.eqb p q then [st] else [] | _ => [] end.
Definition statuses (p : nat) (h : list event) : list (option Z) := flat_map (ev_status p) h.

(* what a process was told, in order *)
Definition ev_told (p : nat) (x : event) : list message :=
  match x with
  | Ev (Write q m) _ => if Nat.eqb p q then [m] else []
  | Ev (RunTest q t) _ => if Nat.eqb p q then [TestCase (t_work t)] else []
  | _ => []
  end.
Definition told (p : nat) (h : list event) : list message := flat_map (ev_told p) h.

(* what a process said of itself *)
Definition ev_said (p : nat) (x : event) : list spoken :=
  match x with Ev (Hello q) (HSaid s) => if Nat.eqb p q then [s] else [] | _ => [] end.
Definition said (p : nat) (h : list event) : list spoken := flat_map (ev_said p) h.

(* the process acknowledged its initialization *)
Definition ev_ready (p : nat) (x : event) : bool :=
  match x with Ev (ReadInitSuccess q) true => Nat.eqb p q | _ => false end.
Definition ready (p : nat) (h : list event) : bool := existsb (ev_ready p) h.

(* the tests that were given to processes, with the process *)
Definition ev_given (x : event) : list (nat * test) := match x with Ev (RunTest p t) _ => [(p, t)] | _ => [] end.
Definition given (h : list event) : list (nat * test) := flat_map ev_given h.
(* the tests that processes answered, with the answer *)
Definition ev_answered (x : event) : list (test * nat) := match x with Ev (RunTest _ t) (Answered rs) => [(t, rs)] | _ => [] end.
Definition answered (h : list event) : list (test * nat) := flat_map ev_answered h.
(* the results that were handed over for the queue *)
Definition ev_report (x : event) : list (nat * nat * reported) := match x with Ev (Report w r rs) _ => [(w, r, rs)] | _ => [] end.
Definition reports (h : list event) : list (nat * nat * reported) := flat_map ev_report h.
(* the queue was notified that all tests were run *)
Definition ev_notified (x : event) : list unit := match x with Ev NotifyAllRun _ => [tt] | _ => [] end.
Definition notified (h : list event) : nat := List.length (flat_map ev_notified h).

(* what the queue was sent as the manifest *)
Definition ev_manifest (x : event) : list manifest_result := match x with Ev (SendManifest r) _ => [r] | _ => [] end.
Definition manifests (h : list event) : list manifest_result := flat_map ev_manifest h.
(* what a process said its manifest is *)
Definition ev_generated (x : event) : list (nat * manifest_message) := match x with Ev (ReadManifest p) (Some m) => [(p, m)] | _ => [] end.
Definition generated (h : list event) : list (nat * manifest_message) := flat_map ev_generated h.

(* the queue was asked what to start with, and what it said *)
Definition ev_init (x : event) : list (option init_answer) := match x with Ev GetInit a => [a] | _ => [] end.
Definition inits (h : list event) : list (option init_answer) := flat_map ev_init h.

(* what was captured of processes *)
Definition ev_output (x : event) : list (nat * captured) := match x with Ev (Finish p) (Some c) => [(p, c)] | _ => [] end.
Definition outputs (h : list event) : list (nat * captured) := flat_map ev_output h.
(* captures one after the other *)
Definition joined (cs : list captured) : captured :=
  {| c_stdout := flat_map c_stdout cs; c_stderr := flat_map c_stderr cs; c_combined := flat_map c_combined cs |}.

(* the tests among what is received *)
Definition items (msgs : list received) : list test :=
  flat_map (fun m => match m with Item t => [t] | FlushProcessed => [] end) msgs.

(* the process that runs the first attempts: the one after the process that makes the manifest,
   if there is one *)
Definition first_tester (asked : bool) : nat := if asked then 1 else 0.

(* the value of a variable *)
Fixpoint lookup (k : string) (env : list (string * string)) : option string :=
  match env with
  | [] => None
  | (k', v) :: env => if String.eqb k k' then Some v else lookup k env
  end.

(* Nothing went wrong with the processes and connections themselves: they start, introduce
   themselves, acknowledge, close, end and give their output.  (A test may still break its
   process or run out of time, the queue may still fail, and a process may still say that it
   failed to make the manifest.) *)
Definition smooth (x : event) : bool :=
  match x with
  | Ev Bind None => false
  | Ev (Spawn _ _) false => false
  | Ev (Hello _) (HSaid s) => supported (sp_version s)
  | Ev (Hello _) _ => false
  | Ev (Finish _) None => false
  | Ev (Kill _) false => false
  | Ev (Wait _) None => false
  | Ev (Write _ _) false => false
  | Ev (ReadInitSuccess _) false => false
  | Ev (CloseConnection _) false => false
  | _ => true
  end.

(* An operation of the operating system or a connection failed. *)
Definition io_failed (x : event) : bool :=
  match x with
  | Ev Bind None | Ev (Spawn _ _) false | Ev (Hello _) HIo | Ev (Finish _) None | Ev (Kill _) false
  | Ev (ReadManifest _) None | Ev (Wait _) None | Ev (Write _ _) false | Ev (ReadInitSuccess _) false
  | Ev (CloseConnection _) false | Ev GetInit None => true
  | _ => false
  end.
(* What an error is due to. *)
Definition caused (fetched : bool) (e : error) (h : list event) : Prop :=
  match e with
  | EIo => exists x, In x h /\ io_failed x = true
  | EProtocolTimeout => exists p, In (Ev (Hello p) HTimeout) h
  | ENotCompatible => exists p s, In (Ev (Hello p) (HSaid s)) h /\ sp_version s <> (0, 2)
  | ERunner said => exists p, In (Ev (ReadManifest p) (Some (MFailure said))) h
  | ETestIo => exists p t, In (Ev (RunTest p t) Broken) h
  | ETestTimedOut => exists p t, In (Ev (RunTest p t) TimedOut) h /\ exists q, In (Ev (Kill q) true) h
  | EFetch => fetched = false
  end.

(* ------------------------------------------------------------------ *)
(* Examples of runs. *)
Definition ex_params : params :=
  {| p_inherited := [("PATH", "/bin")]; p_extra := [("FORCE_COLOR", "1")]; p_worker := "3" |}.
Definition ex_spoken : spoken := {| sp_version := (0, 2); sp_spec := 9 |}.
Definition ex_out (n : nat) : captured := {| c_stdout := [n]; c_stderr := []; c_combined := [n; n] |}.
Definition ex_t (w r : nat) : test := {| t_work := w; t_run := r |}.
Definition ex_launch (c : params) (m r : bool) : launch := {| l_env := command_env c "127.0.0.1:9" m; l_retry := r; l_kill_on_drop := true |}.
Definition ex_start (c : params) (p : nat) (m r : bool) : list event :=
  [Ev Bind (Some "127.0.0.1:9"); Ev (Spawn p (ex_launch c m r)) true; Ev (Hello p) (HSaid ex_spoken)].
Definition ex_ready (p : nat) : list event :=
  [Ev (Write p (InitMessage 7 false)) true; Ev (ReadInitSuccess p) true].
Definition ex_test (p : nat) (t : test) (rs : nat) : list event :=
  [Ev (RunTest p t) (Answered rs); Ev (Report (t_work t) (t_run t) (Results rs)) tt].
Definition ex_end (p : nat) : list event :=
  [Ev (CloseConnection p) true; Ev (Wait p) (Some (Some 0%Z)); Ev (Finish p) (Some (ex_out p))].

(* a runner that makes the manifest, runs two tests and the retry of one *)
Definition ex_msgs : list received := [Item (ex_t 10 1); Item (ex_t 11 1); FlushProcessed; Item (ex_t 11 2); FlushProcessed].
Definition ex_trace : list event :=
  (ex_start ex_params 0 true false ++
   [Ev (ReadManifest 0) (Some (MSuccess 5)); Ev (Wait 0) (Some (Some 0%Z)); Ev (Finish 0) (Some (ex_out 0));
    Ev (SendManifest (Manifest 5 ex_spoken)) tt] ++
   ex_start ex_params 1 false false ++ [Ev GetInit (Some (Context 7))] ++ ex_ready 1 ++
   ex_test 1 (ex_t 10 1) 20 ++ ex_test 1 (ex_t 11 1) 21 ++ [Ev FlushResults tt] ++
   ex_end 1 ++ ex_start ex_params 2 false true ++ ex_ready 2 ++ ex_test 2 (ex_t 11 2) 22 ++
   [Ev FlushResults tt; Ev NotifyAllRun tt] ++ ex_end 2)%list.
Definition ex_exit : runner_exit :=
  {| x_code := 0; x_info := Some ex_spoken; x_manifest_output := Some [0; 0]; x_stdio := ([1; 2], []); x_process := [1; 1; 2; 2] |}.
Definition ex_ended : ended := {| e_trace := ex_trace; e_cancel_notified := false; e_ending := Exited ex_exit |}.

(* a runner whose process for the retry cannot be started *)
Definition lost_msgs : list received := [Item (ex_t 10 1); Item (ex_t 10 2); Item (ex_t 11 2)].
Definition lost_trace : list event :=
  (ex_start ex_params 0 false false ++ [Ev GetInit (Some (Context 7))] ++ ex_ready 0 ++ ex_test 0 (ex_t 10 1) 20 ++
   ex_end 0 ++ [Ev Bind (Some "127.0.0.1:9"); Ev (Spawn 1 (ex_launch ex_params false true)) false])%list.
Definition lost_ended : ended := {| e_trace := lost_trace; e_cancel_notified := false; e_ending := TaskPanicked |}.

(* a runner whose copying of output fails *)
Definition closed_msgs : list received := [Item (ex_t 10 1)].
Definition closed_trace : list event :=
  (ex_start ex_params 0 false false ++ [Ev GetInit (Some (Context 7))] ++ ex_ready 0 ++ ex_test 0 (ex_t 10 1) 20 ++
   [Ev NotifyAllRun tt; Ev (CloseConnection 0) true; Ev (Wait 0) (Some (Some 0%Z)); Ev (Finish 0) None])%list.
Definition closed_ended : ended := {| e_trace := closed_trace; e_cancel_notified := false; e_ending := TaskPanicked |}.

(* a worker that is itself run to make a manifest *)
Definition nested_params : params :=
  {| p_inherited := [("ABQ_GENERATE_MANIFEST", "1")]; p_extra := [("FORCE_COLOR", "1")]; p_worker := "3" |}.
Definition nested_trace : list event := ex_start nested_params 0 false false.
Definition nested_ended : ended := {| e_trace := nested_trace; e_cancel_notified := true; e_ending := Exited cancelled_exit |}.
