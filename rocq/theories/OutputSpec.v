(* What C64 and C65 say. *)
From Verif Require Import Base OutputModel.

Section Spec.
Context {R : Type}.

(* the results in a message of the native runner *)
Definition results_in (m : message R) : list R :=
  match m with
  | All rs => rs
  | Incremental (One r) => [r]
  | Incremental (Done (Some r)) => [r]
  | Incremental (Done None) => []
  end.

(* the output shown with the results of a test; results that came in one message share it *)
Definition shown (ms : list (message R)) (l : list (R * output)) : output :=
  match ms, l with
  | [All _], x :: _ => snd x
  | _, _ => flat_map snd l
  end.

(* the output a report carries: before, with, and after the results *)
Definition attributed (y : report R * list (message R)) : output :=
  p_before (fst y) ++
  match p_body (fst y) with Results l => shown (snd y) l | RunnerError _ => [] end ++
  match p_after (fst y) with Some a => a | None => [] end.

(* a native runner (its attempt and what it wrote), the reports on the tests it ran with the
   messages they come from, and the output in no report *)
Record share := { s_proc : nat * output; s_reports : list (report R * list (message R)); s_left : output }.

(* the native runner's output is, in order, that of the reports, a lost part and the rest *)
Definition accounts (lost : output) (x : share) : Prop :=
  snd (s_proc x) = flat_map attributed (s_reports x) ++ lost ++ s_left x /\
  Forall (fun y => p_run (fst y) = fst (s_proc x)) (s_reports x).

(* the report of a test holds the results the native runner sent for it, in order; those
   that came in one message have the same output *)
Definition answers (h : nat * nat * list (message R)) (p : report R) : Prop :=
  p_work p = fst (fst h) /\ p_run p = snd (fst h) /\
  exists l, p_body p = Results l /\ map fst l = flat_map results_in (snd h) /\
    forall rs x y, snd h = [All rs] -> In x l -> In y l -> snd x = snd y.

(* a report of an error of the native runner *)
Definition is_error (p : report R) : Prop := exists q, p_body p = RunnerError q /\ p_before p = q /\ p_after p = None.

Definition prefix {A} (a b : list A) : Prop := exists c, b = a ++ c.
End Spec.
Arguments share : clear implicits.
