(* Statuses of test results: crates/abq_utils/src/net_protocol/runners.rs:585-629.
   The texts in Failure and Error (exception, backtrace) are left out. *)
Inductive rstatus :=
| Failure | Success | Error | Pending | Todo | Skipped | TimedOut | PrivateNativeRunnerError.

(* runners.rs:617-628 *)
Definition is_fail_like (s : rstatus) : bool :=
  match s with
  | Failure | Error | TimedOut | PrivateNativeRunnerError => true
  | Success | Pending | Todo | Skipped => false
  end.
