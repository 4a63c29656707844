(* Vocabulary for stating properties of the results plane. *)
From Verif Require Import Base JobQueueModel WorkerSetModel RunModel RunSpec ServerModel.

Section Spec.
Context {T M L : Type}.
Implicit Types (st : sstate T M L) (r : run_id).

(* A write that was counted and has not left the count. *)
Definition counted (p : write_pc) : bool :=
  match p with WPlanned | WReady | WDumped _ => true | _ => false end.
Definition pending_writes st r : nat :=
  length (filter (fun w => Nat.eqb (w_run w) r && counted (w_pc w)) (sv_writes st)).

(* Every write taken for run r has come to its end. *)
Definition quiet st r : Prop :=
  forall w, In w (sv_writes st) -> w_run w = r -> exists ok, w_pc w = WDone ok.

(* The lines of the batches of run r acknowledged in a log and taken for writing, except
   those whose dump failed in the log [bad]. *)
Definition failed (bad : list (sobs L)) (k : nat) : bool :=
  existsb (fun o => match o with SFailed k' => Nat.eqb k' k | _ => false end) bad.
Definition acked_lines (bad : list (sobs L)) r (h : list (sobs L)) : list L :=
  flat_map (fun o => match o with
                     | SAck (Some k) r' _ l => if Nat.eqb r' r && negb (failed bad k) then [l] else []
                     | _ => []
                     end) h.
(* All lines taken for writing to run r in a log. *)
Definition sent_lines r (h : list (sobs L)) : list L :=
  flat_map (fun o => match o with SSent _ r' l => if Nat.eqb r' r then [l] else [] | _ => [] end) h.

(* Tests exhausted, and no worker that takes part is active. *)
Definition finished_and_idle (c : RunModel.state T M) r : Prop :=
  exists s, get r (s_runs c) = Some s /\ get_run_status s = SManifestDone 0.

(* The writes of run r in the order in which they left the count. *)
Definition finish_order st r : list nat :=
  flat_map (fun o => match o with SFinished k r' => if Nat.eqb r' r then [k] else [] | _ => [] end) (sv_log st).
(* Write k was taken when the manifest of its run was exhausted. *)
Definition taken_at_end st (k : nat) : Prop :=
  exists w, nth_error (sv_writes st) k = Some w /\ w_elig w = true.
(* Fewer than 2^64 writes were ever made (the counter is a u64). *)
Definition small st : Prop := (Z.of_nat (length (sv_writes st)) < 2 ^ 64)%Z.
End Spec.
