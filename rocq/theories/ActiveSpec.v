(* Who is at work in a run, by what was said in it. *)
From Verif Require Import Base JobQueueModel WorkerSetModel RunModel RunSpec ServerModel.

Section Spec.
Context {T M : Type}.
Implicit Types (t : tag) (o : obs T M) (h : list (obs T M)).

Definition about_worker t o : bool := match obs_entity o with Some e => tag_eqb (en_tag e) t | None => false end.

(* Worker t says that it ran all its tests, or that it is cancelled. *)
Definition leaves t o : bool :=
  about_worker t o && match o with OCompleted _ _ | OCancel _ _ => true | _ => false end.

(* Worker t is given a place, the metadata of the tests, or its tests once more. *)
Definition comes_back t o : bool :=
  about_worker t o &&
  match o with
  | OAssigned _ (AssignedRun _ _) | OMetadata _ _ (IMetadata _) | ORetry _ _ (RManifest _ _) | ORetry _ _ RFetchFromPersistence => true
  | _ => false
  end.

(* Worker t has left: it said so, the run had its tests by then, and it has not come back since. *)
Definition gone t h : bool :=
  fold_left (fun g o => if leaves t o then true else if comes_back t o || accepted_manifest o then false else g) h false.

(* Worker t is at work: it came and has not left since.  To come is to be given a place before all tests were handed out, to
   get the metadata afterwards, to get its tests once more, or, for one that never left, to ask for tests once the run has them. *)
Record book := { bk_tests : bool; bk_over : bool; bk_left : bool; bk_here : bool }.
Definition note t (b : book) o : book :=
  {| bk_tests := bk_tests b || accepted_tests o;
     bk_over := bk_over b || has_plan o;
     bk_left := bk_left b || leaves t o;
     bk_here := if leaves t o then false
                else if about_worker t o &&
                        match o with
                        | OAssigned _ (AssignedRun _ _) => negb (bk_over b)
                        | OMetadata _ _ (IMetadata _) => bk_over b
                        | ORetry _ _ RFetchFromPersistence => true
                        | ORetry _ _ (RManifest _ _) => negb (bk_over b)
                        | OAsk _ _ _ => bk_tests b && negb (bk_left b)
                        | _ => false
                        end
                then true else bk_here b |}.
Definition reads t h : book := fold_left (note t) h {| bk_tests := false; bk_over := false; bk_left := false; bk_here := false |}.
Definition at_work t h : bool := bk_tests (reads t h) && bk_here (reads t h).

(* The answer to a request for the results of run r, made now; None when it is not answered at once. *)
Definition answer_to_fetch {L} (st : sstate T M L) (r : run_id) : option (fetch_answer (L := L)) :=
  match skipn (S (length (sv_log st))) (sv_log (sstep st (SFetch r))) with
  | [SAnswer _ _ a] => Some a
  | _ => None
  end.
End Spec.
