(* The vocabulary of C39 and C40: what each runner of a pool contributes to its end. *)
From Verif Require Import Base PoolModel.
From Coq Require Import ZArith.

Section PoolSpec.
Context {info : Type}.
Implicit Types (rs : list (runner_exit info)).

Definition error_of (r : runner_exit info) : list text := match r with RErr e _ _ => [e] | ROk _ _ _ _ _ => [] end.
Definition final_of (r : runner_exit info) : stdio := match r with RErr _ o _ => o | ROk _ _ f _ _ => f end.
(* what is shown of an errored runner: what it wrote to its standard output and then what it
   wrote to its standard error, each, if there is any, with an end of line *)
Definition lines (t : text) : text := match t with [] => [] | _ => t ++ [10] end.
Definition process_of (r : runner_exit info) : text := match r with RErr _ o _ => lines (so_out o) ++ lines (so_err o) | ROk _ _ _ p _ => p end.
Definition info_of (r : runner_exit info) : option info := match r with RErr _ _ i => i | ROk _ _ _ _ i => i end.

Definition exited_ok (r : runner_exit info) : Prop := match r with ROk _ _ _ _ _ => True | RErr _ _ _ => False end.
Definition exit_code_of (r : runner_exit info) : option Z := match r with ROk c _ _ _ _ => Some c | RErr _ _ _ => None end.
Definition manifest_of (r : runner_exit info) : option text := match r with ROk _ m _ _ _ => m | RErr _ _ _ => None end.

(* the claims about a pool's exit code and about the output of generating the manifest *)
Definition exit_code_is_worst rs : Prop :=
  Forall exited_ok rs -> forall c, x_status (shutdown rs) = Completed c -> forall r d, In r rs -> exit_code_of r = Some d -> (d <= c)%Z.
Definition manifest_output_kept rs : Prop :=
  forall i r o, nth_error rs i = Some r -> manifest_of r = Some o -> (forall j r', nth_error rs j = Some r' -> manifest_of r' <> None -> j = i) ->
  x_manifest_output (shutdown rs) = Some (S i, o).
End PoolSpec.

(* every runner of the pool said it was done *)
Definition all_signalled (s : live) : Prop := Forall (fun h => h = Signalled) (l_holders s).
