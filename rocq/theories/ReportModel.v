(* Model of how results are put in order, summed up and reported:
   crates/abq_cli/src/report/ordered_results.rs, crates/abq_cli/src/reporting/summary.rs,
   crates/abq_cli/src/report.rs and the grouping in crates/abq_reporting/src/output.rs.
   Test ids, file names, work ids, timestamps and outputs are opaque or ordered numbers (a
   work id is the number whose big-endian bytes it is: the derived order on arrays is the
   order of these numbers).  Runtimes, wall time and what is printed are left out. *)
From Verif Require Import Base StatusModel.
From Coq Require Import Sorting.Sorted.

(* crates/abq_utils/src/net_protocol/runners.rs:709-740, what the report looks at *)
Record result := { r_id : nat; r_status : rstatus; r_file : option nat; r_runner : nat * nat; r_time : nat }.
(* crates/abq_utils/src/net_protocol.rs:563-572 (AssociatedTestResults) *)
Record assoc := { as_work : nat; as_run : nat; as_results : list result; as_before : list nat; as_after : option (list nat) }.

(* ---- ordered_results.rs ---- *)

(* Ord for tuples and Option, as derived; the key's type is :38 *)
Definition ocmp (a b : option nat) : comparison :=
  match a, b with
  | None, None => Eq
  | None, Some _ => Lt
  | Some _, None => Gt
  | Some x, Some y => Nat.compare x y
  end.
Definition lex (a b : comparison) : comparison := match a with Eq => b | _ => a end.
Definition key := (nat * option nat * nat)%type.
(* :46-52 *)
Definition key_triple (a : assoc) : key :=
  (as_work a, match as_results a with r :: _ => Some (r_time r) | [] => None end, as_run a).
(* :71-77 *)
Definition kcmp (a b : key) : comparison :=
  let '(w, t, n) := a in let '(w', t', n') := b in lex (Nat.compare w w') (lex (ocmp t t') (Nat.compare n n')).
Definition acmp (a b : assoc) : comparison := kcmp (key_triple a) (key_triple b).
Definition ale (a b : assoc) : Prop := acmp a b <> Gt.
(* :55-62 *)
Definition aeq (a b : assoc) : Prop := key_triple a = key_triple b.
(* what BinaryHeap::into_sorted_vec (:33) promises of a function from the heap's content *)
Definition sorter (sort : list assoc -> list assoc) : Prop :=
  forall l, Permutation l (sort l) /\ StronglySorted ale (sort l).

(* ---- maps ---- *)

(* HashMap with number keys, as an association list; the order of iteration is any *)
Section Maps.
Context {V : Type}.
Fixpoint mget (k : nat) (l : list (nat * V)) : option V :=
  match l with [] => None | (k', v) :: t => if Nat.eqb k k' then Some v else mget k t end.
Fixpoint mput (k : nat) (v : V) (l : list (nat * V)) : list (nat * V) :=
  match l with [] => [(k, v)] | (k', v') :: t => if Nat.eqb k k' then (k, v) :: t else (k', v') :: mput k v t end.
Fixpoint mdel (k : nat) (l : list (nat * V)) : list (nat * V) :=
  match l with [] => [] | (k', v') :: t => if Nat.eqb k k' then t else (k', v') :: mdel k t end.
End Maps.

(* ---- summary.rs ---- *)

(* :22-37 *)
Inductive tagst := NeverFailed | AlwaysFailed (internal : bool) | UltimatelySucceeded | UltimatelyFailed.
(* :39-50, :52-71 *)
Record tstatus := { ts_tag : tagst; ts_retried : bool; ts_file : option nat; ts_runner : nat * nat }.
(* :72-77 *)
Record metrics := { m_failed : nat; m_retried : nat; m_exit : nat }.

Definition SUCCESS := 0. Definition FAILURE := 1. Definition ABQ_ERROR := 101.

(* :80-107 *)
Definition agg_step (m : metrics) (s : tstatus) : metrics :=
  let retried := m_retried m + (if ts_retried s then 1 else 0) in
  match ts_tag s with
  | AlwaysFailed internal =>
      {| m_failed := S (m_failed m); m_retried := retried;
         m_exit := if internal then ABQ_ERROR else if Nat.eqb (m_exit m) SUCCESS then FAILURE else m_exit m |}
  | NeverFailed | UltimatelySucceeded | UltimatelyFailed => {| m_failed := m_failed m; m_retried := retried; m_exit := m_exit m |}
  end.
Definition aggregate (l : list tstatus) : metrics := fold_left agg_step l {| m_failed := 0; m_retried := 0; m_exit := SUCCESS |}.

(* :109-132; the start and the test time are left out *)
Record tracker := {
  k_attempts : nat;
  k_tests : list (nat * tstatus);
  k_delayed : list (nat * list (nat * tstatus));
  k_cache : option (nat * metrics)
}.
(* :141-153 *)
Definition tracker_new : tracker := {| k_attempts := 0; k_tests := []; k_delayed := []; k_cache := None |}.

(* :161-167 *)
Definition make_new (r : result) (t : tagst) : tstatus :=
  {| ts_tag := t; ts_retried := false; ts_file := r_file r; ts_runner := r_runner r |}.
(* :204-221 *)
Definition next_tag (t : tagst) (run_number : nat) (fail : bool) : tagst :=
  match t with
  | NeverFailed => if fail then (if Nat.eqb run_number 1 then AlwaysFailed false else UltimatelyFailed) else NeverFailed
  | AlwaysFailed i => if fail then AlwaysFailed i else UltimatelySucceeded
  | UltimatelySucceeded | UltimatelyFailed => t
  end.
Definition is_synthetic (s : rstatus) : bool := match s with PrivateNativeRunnerError => true | _ => false end.
(* :156-232; INIT_RUN_NUMBER is 1 *)
Definition account (k : tracker) (run_number work : nat) (r : result) : tracker :=
  if is_synthetic (r_status r) then
    let old := match mget work (k_delayed k) with Some l => l | None => [] end in
    {| k_attempts := S (k_attempts k); k_tests := k_tests k;
       k_delayed := mput work (old ++ [(r_id r, make_new r (AlwaysFailed true))]) (k_delayed k); k_cache := k_cache k |}
  else
    let is_new := match mget (r_id r) (k_tests k) with None => true | Some _ => false end in
    let entry := match mget (r_id r) (k_tests k) with None => make_new r NeverFailed | Some e => e end in
    let entry' := {| ts_tag := next_tag (ts_tag entry) run_number (is_fail_like (r_status r)); ts_retried := negb is_new;
                     ts_file := ts_file entry; ts_runner := ts_runner entry |} in
    {| k_attempts := S (k_attempts k); k_tests := mput (r_id r) entry' (k_tests k);
       k_delayed := mdel work (k_delayed k); k_cache := k_cache k |}.

(* :248-258 *)
Definition statuses (k : tracker) : list tstatus :=
  map snd (k_tests k) ++ map snd (concat (map snd (k_delayed k))).
(* :234-246; [order] is the order the maps are walked through this time *)
Definition load_metrics (k : tracker) (order : list tstatus) : tracker * metrics :=
  match k_cache k with
  | Some (n, m) =>
      if Nat.eqb n (k_attempts k) then (k, m)
      else let m := aggregate order in ({| k_attempts := k_attempts k; k_tests := k_tests k; k_delayed := k_delayed k; k_cache := Some (k_attempts k, m) |}, m)
  | None => let m := aggregate order in ({| k_attempts := k_attempts k; k_tests := k_tests k; k_delayed := k_delayed k; k_cache := Some (k_attempts k, m) |}, m)
  end.

(* BTreeMap as a list sorted by key, with the entry interface *)
Section BTree.
Context {K V : Type} (cmp : K -> K -> comparison).
Fixpoint bupdate (k : K) (f : option V -> V) (l : list (K * V)) : list (K * V) :=
  match l with
  | [] => [(k, f None)]
  | (k', v) :: t => match cmp k k' with Eq => (k', f (Some v)) :: t | Lt => (k, f None) :: l | Gt => (k', v) :: bupdate k f t end
  end.
End BTree.

(* output.rs:109-114; counts per file as sorted association lists *)
Definition counts := list (nat * nat).
Record summary := { u_runner : nat * nat; u_failures : counts; u_retries : counts }.
Definition bump (file n : nat) (c : counts) : counts := bupdate Nat.compare file (fun o => match o with Some m => m + n | None => n end) c.
Definition runner_cmp (a b : nat * nat) : comparison := lex (Nat.compare (fst a) (fst b)) (Nat.compare (snd a) (snd b)).

(* summary.rs:279-311: one turn of the loop *)
Definition sum_step (s : list ((nat * nat) * summary)) (t : tstatus) : list ((nat * nat) * summary) :=
  bupdate runner_cmp (ts_runner t) (fun o =>
    let u := match o with Some u => u | None => {| u_runner := ts_runner t; u_failures := []; u_retries := [] |} end in
    let u := match ts_tag t, ts_file t with
             | AlwaysFailed false, Some f => {| u_runner := u_runner u; u_failures := bump f 1 (u_failures u); u_retries := u_retries u |}
             | _, _ => u
             end in
    match ts_retried t, ts_file t with
    | true, Some f => {| u_runner := u_runner u; u_failures := u_failures u; u_retries := bump f 1 (u_retries u) |}
    | _, _ => u
    end) s.

Record suite := { s_exit : nat; s_count : nat; s_failed : nat; s_retried : nat; s_runners : list summary }.
(* :260-325; the two orders are those of the two iterations *)
Definition suite_result (k : tracker) (order1 order2 : list tstatus) : tracker * suite :=
  let '(k', m) := load_metrics k order1 in
  (k', {| s_exit := m_exit m; s_count := length order2; s_failed := m_failed m; s_retried := m_retried m;
          s_runners := map snd (fold_left sum_step order2 []) |}).

(* output.rs:133-143 *)
Definition union (a b : summary) : summary :=
  {| u_runner := u_runner a;
     u_failures := fold_left (fun c e => bump (fst e) (snd e) c) (u_failures b) (u_failures a);
     u_retries := fold_left (fun c e => bump (fst e) (snd e) c) (u_retries b) (u_retries a) |}.
Inductive grouping := ByWorker | ByRunner.
(* output.rs:184-189 *)
Definition grouping_key (g : grouping) (r : nat * nat) : nat := match g with ByRunner => snd r | ByWorker => fst r end.
(* output.rs:168-182 *)
Definition group_step (g : grouping) (m : list (nat * summary)) (u : summary) : list (nat * summary) :=
  bupdate Nat.compare (grouping_key g (u_runner u)) (fun o => match o with Some e => union e u | None => u end) m.
Definition grouped (g : grouping) (us : list summary) : list summary := map snd (fold_left (group_step g) us []).

(* ---- report.rs ---- *)

(* net_protocol.rs (results::ResultsLine); the native runner's description is a number *)
Inductive rline := Results (l : list assoc) | Summary (nonce info : nat).
(* the calls a reporter gets; all reporters get the same *)
Inductive rcall := Push (run_number : nat) (before : option (list nat)) (r : result) (after : option (list nat)) | AfterAll | Finish (info : nat).
Inductive outcome := Reported (exit : nat) | NoSummary | SizeMismatch | ReporterFailed.

(* report.rs:313-362: the results of one test, oldest first *)
Fixpoint pushes (run_number : nat) (before after : option (list nat)) (rs : list result) : list rcall :=
  match rs with
  | [] => []
  | [r] => [Push run_number before r after]
  | r :: rs' => Push run_number before r None :: pushes run_number None after rs'
  end.
Definition handle_calls (a : assoc) : list rcall := pushes (as_run a) (Some (as_before a)) (as_after a) (as_results a).
Definition handle_account (k : tracker) (a : assoc) : tracker :=
  fold_left (fun k r => account k (as_run a) (as_work a) r) (as_results a) k.

(* report.rs:131-147: the results, and the last summary.  A second summary is only noted
   (log_assert_stderr, release build). *)
Definition line_results (l : rline) : list assoc := match l with Results rs => rs | Summary _ _ => [] end.
Fixpoint last_summary (ls : list rline) (d : option (nat * nat)) : option (nat * nat) :=
  match ls with [] => d | Results _ :: t => last_summary t d | Summary n i :: t => last_summary t (Some (n, i)) end.

(* report.rs:118-193.  [sort] is into_sorted_vec, [orders] gives the orders of iteration of
   the tracker's maps, [push_ok] is whether the reporters took the first calls, [finish_ok]
   whether they could finish *)
Definition process (sort : list assoc -> list assoc) (orders : tracker -> list tstatus * list tstatus)
                   (push_ok : list rcall -> bool) (finish_ok : bool) (ls : list rline) : outcome * list rcall :=
  let ordered := sort (flat_map line_results ls) in
  let calls := flat_map handle_calls ordered in
  if negb (push_ok calls) then (ReporterFailed, calls) (* up to the failing call; the others saw no more *)
  else
    let k := fold_left handle_account ordered tracker_new in
    let calls := calls ++ [AfterAll] in
    let '(_, s) := suite_result k (fst (orders k)) (snd (orders k)) in
    match last_summary ls None with
    | None => (NoSummary, calls)
    | Some (nonce, info) =>
        if Nat.eqb nonce (length (nodup Nat.eq_dec (map as_work ordered))) then
          if finish_ok then (Reported (s_exit s), calls ++ [Finish info]) else (ReporterFailed, calls ++ [Finish info])
        else (SizeMismatch, calls)
    end.

(* net_protocol.rs (queue::TestResultsResponse) *)
Inductive response := Streaming (ls : list rline) | PendingResults | InProgress | RError.
Inductive fetched := Fetched (ls : list rline) | Failed | StillWaiting.
(* report.rs:249-310: the answers of the queue to each request; connecting and reading are
   taken to succeed, failures end in an error too *)
Fixpoint wait_for_results (answers : list response) : fetched :=
  match answers with
  | [] => StillWaiting
  | Streaming ls :: _ => Fetched ls
  | PendingResults :: t => wait_for_results t
  | InProgress :: _ | RError :: _ => Failed
  end.

(* report.rs:82-116: abq list-tests; sort_by_key is stable *)
Fixpoint insert_by_time (r : result) (l : list result) : list result :=
  match l with
  | [] => [r]
  | x :: t => if Nat.ltb (r_time x) (r_time r) || Nat.eqb (r_time x) (r_time r) then x :: insert_by_time r t else r :: l
  end.
Definition sort_by_time (l : list result) : list result := fold_left (fun acc r => insert_by_time r acc) l [].
Definition runner_eqb (a b : nat * nat) : bool := Nat.eqb (fst a) (fst b) && Nat.eqb (snd a) (snd b).
Definition list_tests (ls : list rline) (who : nat * nat) : list nat :=
  map r_id (sort_by_time (filter (fun r => runner_eqb (r_runner r) who)
    (flat_map as_results (filter (fun a => Nat.eqb (as_run a) 1) (flat_map line_results ls))))).
