(* The asynchronous reader of framed messages with its clock: when the time for a message
   runs out.  crates/abq_utils/src/net_protocol.rs:1069-1192 (AsyncReader, next_expiration).
   WireModel has the reader without times: there the expiry may happen at any moment.
   Times are numbers of the monotonic clock; each event has the time at which the task is
   polled.  A sleep_until that is past its deadline may lose against a read that is ready
   (select! is fair), so an Expire event is possible, not necessary, after the deadline. *)
From Verif Require Import Base JsonModel WireModel.
From Coq Require Import NArith.

Section Timed.
Context (gz_decode : bytes -> option bytes).

(* the reader with the instant in next_expiration, which counts only if r_expires *)
Record timed := { tm_world : world; tm_deadline : N }.

(* [timeout] is AsyncReader's; :1145-1149: the deadline is set when there is none *)
Definition tgo (closed : bool) (timeout : N) (t : timed) (e : event) (now : N) : timed :=
  let w' := wstep gz_decode closed (tm_world t) e in
  {| tm_world := w';
     tm_deadline := if r_expires (w_reader w') && negb (r_expires (w_reader (tm_world t))) then (now + timeout)%N else tm_deadline t |}.

(* :1151-1159 *)
Definition tstep (closed : bool) (timeout : N) (t : timed) (ev : event * N) : timed :=
  let (e, now) := ev in
  match e with
  | Expire => if r_expires (w_reader (tm_world t)) && (tm_deadline t <=? now)%N then tgo closed timeout t e now else t
  | _ => tgo closed timeout t e now
  end.

Definition tconnect (stream : bytes) : timed := {| tm_world := connect stream; tm_deadline := 0 |}.
End Timed.
