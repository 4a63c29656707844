(* The words of C73: which run id a command works for, which access token it has, and what the
   answer of the API says about a queue. *)
From Verif Require Import Base CliModel.

Section CliSpec.
Context {Addr Token Access Bytes Id Text : Type}.

(* A run id the user gave, or one that the CI service tells through its own variable: the first of
   Buildkite, CircleCI, GitHub and Mint that is set, if CI is set and ABQ_RUN_ID is not. *)
Definition from_ci (e : environment Id) (r : Id) : Prop :=
  e_abq_run_id e = None /\ e_ci e = true /\
  exists before after, [e_buildkite e; e_circle e; e_github e; e_mint e] = before ++ Some r :: after /\
                       Forall (fun v => v = None) before.
Definition names_the_run (e : environment Id) (o : options Addr Token Access Bytes Id Text) (r : Id) : Prop :=
  o_run_id o = Some r \/ (o_run_id o = None /\ from_ci e r).
Definition names_no_run (e : environment Id) (o : options Addr Token Access Bytes Id Text) : Prop :=
  forall r, ~ names_the_run e o r.

(* The token of the option or the variable comes before the stored one. *)
Definition has_access (stored : option Access) (o : options Addr Token Access Bytes Id Text) (t : Access) : Prop :=
  o_access_token o = Some t \/ (o_access_token o = None /\ stored = Some t).
Definition no_access (stored : option Access) (o : options Addr Token Access Bytes Id Text) : Prop :=
  o_access_token o = None /\ stored = None.

(* The worker of [s] sends its results to the queue (crates/abq_cli/src/workers.rs:108). *)
Definition sends_results (s : started Addr Token Bytes Id Text) : Prop := s_mode s = WriteNormal.

End CliSpec.
