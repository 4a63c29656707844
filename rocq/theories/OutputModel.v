(* Model of what a worker reports of its native runner's messages and output:
   crates/abq_runners/generic_test_runner/src/lib.rs.  One of the two output streams is
   modelled; both are treated alike and independently.  Captured bytes arrive in the
   stream's side channel at any time (crates/abq_utils/src/capture_output/muxer.rs,
   modelled in CaptureModel); the header a retry's output starts with arrives like output.
   A result is an opaque R; the texts of errors are left out but for the output they quote. *)
From Verif Require Import Base.

Section Output.
Context {R : Type}.

Definition output := list nat.

(* crates/abq_utils/src/net_protocol/runners.rs:923-934 *)
Inductive increment := One (r : R) | Done (last : option R).
Inductive message := All (rs : list R) | Incremental (s : increment).

(* A result with the output attached to it (lib.rs:1268-1272); an error of the native
   runner, quoting the output found (lib.rs:1342-1377). *)
Inductive body := Results (l : list (R * output)) | RunnerError (quoted : output).

(* AssociatedTestResults *)
Record report := { p_work : nat; p_run : nat; p_before : output; p_body : body; p_after : option output }.

(* Where the task that runs the tests is: waiting for a test (982); about to send one (after
   988-991); waiting for the first message (1191-1192), with the output taken before;
   waiting for another increment (1219-1220), with the results so far; after an error of
   the connection or a timeout (1009); over without tests left (1046-1059) or with an
   error; run_help has returned. *)
Inductive pc :=
| PIdle | PStart (w : nat) | PFirst (w : nat) (before : output)
| PMore (w : nat) (before : output) (results : list (R * output))
| PFailed (w : nat) | PClosed | PDead | PEnded.

(* What run_help returns (841-875); a panic. *)
Inductive outcome := OExit (final : output) | OError (final : output) | OPanic.

(* How starting the native runner of another attempt goes (627-678): the old one cannot be
   shut down (643-645); finishing its output fails (648); the new one does not start or does
   not connect (659-669); it does not take the initialization message (673-675); all is well. *)
Inductive relaunch := LShutdownFailed | LFinishFailed | LSpawnFailed | LInitFailed | LOk.

(* o_side: the side channel of the current native runner; o_finished: finish was already
   called on it; o_prev: previous_child_output (None is empty); o_run: run_number.
   Ghosts: o_procs, the attempt of each native runner started and what was captured of
   it; o_taken, the tests received and their attempts; o_heard, for each test sent, its id, attempt and the messages read for it. *)
Record ostate := {
  o_side : output; o_finished : bool; o_prev : output; o_run : nat; o_pc : pc;
  o_sent : list report; o_outcome : option outcome;
  o_procs : list (nat * output); o_taken : list (nat * nat); o_heard : list (nat * nat * list message) }.

Definition set_pc (p : pc) (s : ostate) : ostate :=
  {| o_side := o_side s; o_finished := o_finished s; o_prev := o_prev s; o_run := o_run s; o_pc := p;
     o_sent := o_sent s; o_outcome := o_outcome s; o_procs := o_procs s; o_taken := o_taken s; o_heard := o_heard s |}.

Fixpoint on_last {A} (f : A -> A) (l : list A) : list A :=
  match l with [] => [] | [x] => [f x] | x :: t => x :: on_last f t end.

(* 401-427: the first native runner *)
Definition oinit (run : nat) : ostate :=
  {| o_side := []; o_finished := false; o_prev := []; o_run := run; o_pc := PIdle;
     o_sent := []; o_outcome := None; o_procs := [(run, [])]; o_taken := []; o_heard := [] |}.

(* muxer.rs:156-159 *)
Definition arrive (b : output) (s : ostate) : ostate :=
  {| o_side := o_side s ++ b; o_finished := o_finished s; o_prev := o_prev s; o_run := o_run s; o_pc := o_pc s;
     o_sent := o_sent s; o_outcome := o_outcome s;
     o_procs := on_last (fun p => (fst p, snd p ++ b)) (o_procs s); o_taken := o_taken s; o_heard := o_heard s |}.

(* get_captured: the side channel is emptied *)
Definition drain (p : pc) (heard : list (nat * nat * list message)) (s : ostate) : ostate :=
  {| o_side := []; o_finished := o_finished s; o_prev := o_prev s; o_run := o_run s; o_pc := p;
     o_sent := o_sent s; o_outcome := o_outcome s; o_procs := o_procs s; o_taken := o_taken s; o_heard := heard |}.

Definition send (rs : list report) (s : ostate) : ostate :=
  {| o_side := o_side s; o_finished := o_finished s; o_prev := o_prev s; o_run := o_run s; o_pc := o_pc s;
     o_sent := o_sent s ++ rs; o_outcome := o_outcome s; o_procs := o_procs s; o_taken := o_taken s; o_heard := o_heard s |}.

Definition finish (o : outcome) (s : ostate) : ostate :=
  {| o_side := o_side s; o_finished := true; o_prev := o_prev s; o_run := o_run s; o_pc := PEnded;
     o_sent := o_sent s; o_outcome := Some o; o_procs := o_procs s; o_taken := o_taken s; o_heard := o_heard s |}.

(* 1268-1272, 1252-1266 *)
Definition attach (captured : output) (r : R) : R * output := (r, captured).
Definition attach_all (captured : output) (rs : list R) : list (R * output) :=
  match rs with [r] => [attach captured r] | _ => map (attach captured) rs end.

Definition take (w run : nat) (s : ostate) : ostate :=
  {| o_side := o_side s; o_finished := o_finished s; o_prev := o_prev s; o_run := o_run s; o_pc := o_pc s;
     o_sent := o_sent s; o_outcome := o_outcome s; o_procs := o_procs s; o_taken := o_taken s ++ [(w, run)]; o_heard := o_heard s |}.

(* 641-677 *)
Definition restart (w run : nat) (l : relaunch) (s : ostate) : ostate :=
  match l with
  | LShutdownFailed => set_pc PDead s
  | LFinishFailed =>
      {| o_side := o_side s; o_finished := true; o_prev := o_prev s; o_run := o_run s; o_pc := PDead;
         o_sent := o_sent s; o_outcome := o_outcome s; o_procs := o_procs s; o_taken := o_taken s; o_heard := o_heard s |}
  (* the output kept so far was moved out (657) and is dropped with the error *)
  | LSpawnFailed =>
      {| o_side := []; o_finished := true; o_prev := []; o_run := o_run s; o_pc := PDead;
         o_sent := o_sent s; o_outcome := o_outcome s; o_procs := o_procs s; o_taken := o_taken s; o_heard := o_heard s |}
  | LInitFailed =>
      {| o_side := []; o_finished := false; o_prev := o_prev s ++ o_side s; o_run := run; o_pc := PDead;
         o_sent := o_sent s; o_outcome := o_outcome s; o_procs := o_procs s ++ [(run, [])]; o_taken := o_taken s; o_heard := o_heard s |}
  | LOk =>
      {| o_side := []; o_finished := false; o_prev := o_prev s ++ o_side s; o_run := run; o_pc := PStart w;
         o_sent := o_sent s; o_outcome := o_outcome s; o_procs := o_procs s ++ [(run, [])]; o_taken := o_taken s; o_heard := o_heard s |}
  end.

Definition heard_more (m : message) (h : list (nat * nat * list message)) : list (nat * nat * list message) :=
  on_last (fun x => (fst x, snd x ++ [m])) h.

(* 1243-1249 *)
Definition complete (w : nat) (before : output) (l : list (R * output)) (after : option output) (s : ostate) : report :=
  {| p_work := w; p_run := o_run s; p_before := before; p_body := Results l; p_after := after |}.

(* 1210-1238: one round of the loop, with the output captured when the increment was read *)
Definition increments (w : nat) (before : output) (l : list (R * output)) (i : increment) (s : ostate) : ostate :=
  let captured := o_side s in
  let heard := heard_more (Incremental i) (o_heard s) in
  match i with
  | One r => drain (PMore w before (l ++ [attach captured r])) heard s
  | Done (Some r) => send [complete w before (l ++ [attach captured r]) None s] (drain PIdle heard s)
  | Done None => send [complete w before l (Some captured) s] (drain PIdle heard s)
  end.

(* 1365-1384 *)
Definition error_report (run : nat) (final : output) (w : nat) : report :=
  {| p_work := w; p_run := run; p_before := final; p_body := RunnerError final; p_after := None |}.

Inductive oevent :=
| OArrive (b : output)                       (* output of the native runner is captured *)
| OTest (w run : nat) (l : relaunch)         (* the next test is received (982-991); l is used for another attempt only *)
| OSend                                      (* the test is sent (1181-1191) *)
| ORead (m : message)                        (* a message of the native runner is read (1192, 1219) *)
| OFail                                      (* writing or reading fails, or the test times out *)
| OFlush (remaining : list nat)              (* the failure is reported (1009-1035) *)
| OClose (ok : bool)                         (* there are no more tests, the runner ends or cannot be shut down (1046-1059) *)
| OFinish (ok : bool).                       (* the end of run_help; ok: copying the output went well (841-875) *)

Definition ostep (s : ostate) (e : oevent) : ostate :=
  match e with
  | OArrive b => match o_outcome s with None => if o_finished s then s else arrive b s | Some _ => s end
  | OTest w run l =>
      match o_pc s with
      | PIdle => let s := take w run s in if Nat.eqb run (o_run s) then set_pc (PStart w) s else restart w run l s
      | _ => s
      end
  | OSend =>
      match o_pc s with
      | PStart w => drain (PFirst w (o_side s)) (o_heard s ++ [(w, o_run s, [])]) s
      | _ => s
      end
  | ORead m =>
      match o_pc s, m with
      | PFirst w before, All rs =>
          send [complete w before (attach_all (o_side s) rs) None s] (drain PIdle (heard_more m (o_heard s)) s)
      | PFirst w before, Incremental i => increments w before [] i s
      | PMore w before l, Incremental i => increments w before l i s
      | _, _ => s
      end
  | OFail =>
      match o_pc s with
      | PFirst w _ | PMore w _ _ => set_pc (PFailed w) s
      | _ => s
      end
  | OFlush remaining =>
      match o_pc s with
      | PFailed w => send (map (error_report (o_run s) (o_side s)) (w :: remaining)) (set_pc PDead s)
      | _ => s
      end
  | OClose ok => match o_pc s with PIdle => set_pc (if ok then PClosed else PDead) s | _ => s end
  | OFinish ok =>
      match o_pc s with
      | PClosed => if ok then finish (OExit (o_prev s ++ o_side s)) s else finish OPanic s
      | PDead => if o_finished s then finish OPanic s          (* a finished task's handle is polled again *)
                 else if ok then finish (OError (o_prev s ++ o_side s)) s else finish OPanic s
      | _ => s
      end
  end.
End Output.
Arguments increment : clear implicits.
Arguments message : clear implicits.
Arguments body : clear implicits.
Arguments report : clear implicits.
Arguments ostate : clear implicits.
Arguments oevent : clear implicits.
Arguments pc : clear implicits.
