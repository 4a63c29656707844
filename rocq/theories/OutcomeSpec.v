(* The vocabulary of C70: the processes of the workers of a whole run. *)
From Verif Require Import Base JobQueueModel JobQueueSpec StatusModel FetchModel FetchSpec.
From Verif Require Import RunnerModel RunnerSpec SystemModel SystemSpec ReportModel OutcomeModel.
From Verif Require RunModel PoolModel WorkerModel WorkerSpec.

(* What a report says, without where and when it was made. *)
Definition core (a : assoc) : aresult :=
  {| ar_work := as_work a; ar_run := as_run a; ar_results := map (fun r => (r_id r, r_status r)) (as_results a) |}.

(* [l] is what a worker with the runners [mine] is handed in the run that ended in [y]: all
   that its runners reported, each runner's reports in their order, mixed in any way *)
Definition received (y : system) (mine : nat -> bool) (l : list assoc) : Prop :=
  exists from : list (nat * assoc), map snd from = l /\
    forall i, map core (map snd (filter (fun x => Nat.eqb (fst x) i) from)) =
              match nth_error (y_slots y) i with Some sl => if mine i then reported_by sl else [] | None => [] end.

(* The test cases a report is about: those with a result of the test framework. *)
Definition made_up (s : rstatus) : bool := match s with PrivateNativeRunnerError => true | _ => false end.
Definition cases (r : aresult) : list (nat * rstatus) := filter (fun x => negb (made_up (snd x))) (ar_results r).

(* Native runners name test cases in a consistent way: once in a report, a name for one test
   only, and no new ones in a second attempt. *)
Definition identified (rs : list aresult) : Prop :=
  (forall r, In r rs -> NoDup (map fst (cases r))) /\
  (forall r r' t, In r rs -> In r' rs -> In t (map fst (cases r)) -> In t (map fst (cases r')) -> ar_work r = ar_work r') /\
  (forall r t, In r rs -> In t (map fst (cases r)) -> exists r', In r' rs /\ ar_work r' = ar_work r /\ ar_run r' = 1 /\ In t (map fst (cases r'))).

(* A case of a test has been reported, one has passed in some attempt. *)
Definition case_of (rs : list aresult) (id t : nat) : Prop := exists r, In r rs /\ ar_work r = id /\ In t (map fst (cases r)).
Definition passed (rs : list aresult) (id t : nat) : Prop :=
  exists r s, In r rs /\ ar_work r = id /\ In (t, s) (cases r) /\ is_fail_like s = false.

(* The process of a worker: its runners, how it was started and all that happened to it. *)
Record process := { pr_runners : nat -> bool; pr_config : WorkerModel.wconfig; pr_events : list WorkerModel.wevent }.
Definition exit_status (p : process) (c : Z) : Prop :=
  WorkerModel.w_phase (run (WorkerModel.wstep (pr_config p)) WorkerModel.winit (pr_events p)) = WorkerModel.Exited c.

(* It was told to run tests, and its reports are those of its runners in the run [y]. *)
Definition took_part (y : system) (p : process) : Prop :=
  exists es1 k d ok es2, pr_events p = es1 ++ WorkerModel.EAttempt (WorkerModel.Got (WorkerModel.MContext k d)) ok :: es2 /\ WorkerSpec.undecided es1 /\
  forall e, WorkerSpec.runners_end es2 = Some e ->
    match e with
    | WorkerModel.Ended _ report => exists l, received y (pr_runners p) l /\ suite_exit l (option_map WorkerModel.p_suite report)
    | WorkerModel.RunnerPanicked => True
    end.

(* Every report of the worker's runners has results of the test framework only, and each
   case in it passed in some attempt. *)
Definition all_well (y : system) (mine : nat -> bool) : Prop :=
  forall i sl r, nth_error (y_slots y) i = Some sl -> mine i = true -> In r (reported_by sl) ->
    ar_results r <> [] /\ Forall (fun x => made_up (snd x) = false) (ar_results r) /\
    forall t, In t (map fst (cases r)) -> passed (reported y) (ar_work r) t.
