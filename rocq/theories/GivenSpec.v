(* The vocabulary of C94: what the answers of a queue give of a manifest. *)
From Verif Require Import Base JobQueueModel RunModel RunSpec.

Section Spec.
Context {T M : Type}.

(* The tests of a manifest, each for its first attempt *)
Definition tests_from (flat : list (T * group)) : list (worker_test T) :=
  map (fun t => {| wt_spec := fst t; wt_run_number := 1 |}) flat.
(* A manifest without tests comes with no setup that is kept. *)
Definition setup_from (flat : list (T * group)) (meta : M) : option M := match flat with [] => None | _ => Some meta end.

(* The queue takes the manifest. *)
Definition taken (st : state T M) (r : run_id) (flat : list (T * group)) (meta : M) : Prop :=
  s_log (step st (EManifest r flat meta)) = s_log st ++ [OManifest r (length flat) true].

(* An answer gives only tests out of [ts], and no setup but [m]; what is to be stored is exactly these. *)
Definition gives_from (ts : list (worker_test T)) (m : option M) (o : obs T M) : Prop :=
  match o with
  | OMetadata _ _ (IMetadata m') => m' = m
  | OWork _ _ _ ws _ p => incl ws ts /\ match p with Some p => fst (pl_view p) = ts /\ sv_meta (pl_state p) = m | None => True end
  | ORetry _ _ (RManifest ws _) => incl ws ts
  | _ => True
  end.
(* An answer gives neither tests nor a setup. *)
Definition gives_nothing (o : obs T M) : Prop :=
  match o with
  | OMetadata _ _ (IMetadata _) => False
  | OWork _ _ _ ws _ p => ws = [] /\ p = None
  | ORetry _ _ (RManifest ws _) => ws = []
  | _ => True
  end.
End Spec.
