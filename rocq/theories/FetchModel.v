(* Model of how a worker's runner gets its tests:
   crates/abq_workers/src/test_fetching/retries.rs (the tracker of in-process retries)
   and crates/abq_workers/src/test_fetching.rs (the fetcher).
   Work ids and test ids are numbers; of a test case its focus is kept
   (crates/abq_utils/src/net_protocol/runners/v0_2.rs:98-137).  Run numbers (u32) are
   natural numbers; the code adds 1 to a run number only below the maximum.
   Debug assertions and log_assert! (which only log in release builds) are left out. *)
From Verif Require Import Base StatusModel.

Record spec := { sp_id : nat; sp_focus : option (list nat) }.
(* net_protocol/workers.rs: WorkerTest, NextWorkBundle *)
Record wtest := { wt_spec : spec; wt_run : nat }.
Record bundle := { b_work : list wtest; b_eow : bool }.
(* net_protocol/queue.rs: AssociatedTestResults: the id and status of each result *)
Record aresult := { ar_work : nat; ar_run : nat; ar_results : list (nat * rstatus) }.

(* net_protocol/workers.rs (INIT_RUN_NUMBER) *)
Definition INIT_RUN_NUMBER := 1.

(* v0_2.rs:118-131 *)
Definition add_focus (f : option (list nat)) (test_id : nat) : option (list nat) :=
  match f with
  | None => Some [test_id]
  | Some ids => if existsb (Nat.eqb test_id) ids then Some ids else Some (ids ++ [test_id])
  end.

(* ---- the tracker, retries.rs ---- *)

(* :26-33 *)
Inductive status := HasNonFailingAttempt | AlwaysFailedOn (last : nat).
(* :36-41 *)
Record entry := { e_spec : spec; e_status : status }.
(* :45-62 *)
Inductive assembled := NotStarted | WaitingForEndOfHydration (last_seen : nat) (processed : bool) | Hydrated (last : nat) (processed : bool).
(* :67-74 *)
Inductive hydration := StillHydrating | EmptyManifest | EndOfManifest.
(* :13-23 *)
Record tracker := { tr_indices : nat -> option nat; tr_entries : list entry; tr_max : nat; tr_current : nat; tr_state : assembled }.

(* :136-144 *)
Definition new_tracker (max_run_number : nat) : tracker :=
  {| tr_indices := fun _ => None; tr_entries := []; tr_max := max_run_number; tr_current := INIT_RUN_NUMBER; tr_state := NotStarted |}.

(* :77-89; None is the panic of unreachable! *)
Definition note_seen_manifest_item (s : assembled) (work_id : nat) : option assembled :=
  match s with
  | NotStarted | WaitingForEndOfHydration _ _ => Some (WaitingForEndOfHydration work_id false)
  | Hydrated _ _ => None
  end.
(* :91-109 *)
Definition note_end_of_manifest (s : assembled) : option (assembled * hydration) :=
  match s with
  | NotStarted => Some (NotStarted, EmptyManifest)
  | WaitingForEndOfHydration w p => Some (Hydrated w p, EndOfManifest)
  | Hydrated _ _ => None
  end.
(* :111-132 *)
Definition note_accounted_result (s : assembled) (work_id : nat) : option assembled :=
  match s with
  | NotStarted => None
  | WaitingForEndOfHydration w _ => Some (WaitingForEndOfHydration w (Nat.eqb work_id w))
  | Hydrated w _ => Some (Hydrated w (Nat.eqb work_id w))
  end.

(* :164-183 *)
Definition hydrate_item (t : tracker) (s : spec) : option tracker :=
  match note_seen_manifest_item (tr_state t) (sp_id s) with
  | None => None
  | Some st =>
      Some {| tr_indices := fun w => if Nat.eqb w (sp_id s) then Some (length (tr_entries t)) else tr_indices t w;
              tr_entries := tr_entries t ++ [{| e_spec := s; e_status := HasNonFailingAttempt |}];
              tr_max := tr_max t; tr_current := tr_current t; tr_state := st |}
  end.
Fixpoint hydrate_items (t : tracker) (ws : list wtest) : option tracker :=
  match ws with
  | [] => Some t
  | w :: ws' => match hydrate_item t (wt_spec w) with None => None | Some t' => hydrate_items t' ws' end
  end.
Definition set_state (t : tracker) (s : assembled) : tracker :=
  {| tr_indices := tr_indices t; tr_entries := tr_entries t; tr_max := tr_max t; tr_current := tr_current t; tr_state := s |}.
(* :146-161 *)
Definition hydrate_slice (t : tracker) (ws : list wtest) (eow : bool) : option (tracker * hydration) :=
  match hydrate_items t ws with
  | None => None
  | Some t' =>
      if eow then match note_end_of_manifest (tr_state t') with
                  | None => None
                  | Some (s, h) => Some (set_state t' s, h)
                  end
      else Some (t', StillHydrating)
  end.

(* :207-231; None is the panic of expect *)
Definition account_failure (t : tracker) (work_id run_number test_id : nat) : option tracker :=
  match tr_indices t work_id with
  | None => None
  | Some i =>
      match nth_error (tr_entries t) i with
      | None => None
      | Some e =>
          let set_failed := match e_status e with
                            | HasNonFailingAttempt => Nat.eqb run_number INIT_RUN_NUMBER
                            | AlwaysFailedOn last => Nat.eqb (last + 1) run_number
                            end in
          if set_failed then
            let s := {| sp_id := sp_id (e_spec e); sp_focus := add_focus (sp_focus (e_spec e)) test_id |} in
            Some {| tr_indices := tr_indices t;
                    tr_entries := upd i {| e_spec := s; e_status := AlwaysFailedOn run_number |} (tr_entries t);
                    tr_max := tr_max t; tr_current := tr_current t; tr_state := tr_state t |}
          else Some t
      end
  end.
(* :197-201 *)
Fixpoint account_one (t : tracker) (work_id run_number : nat) (rs : list (nat * rstatus)) : option tracker :=
  match rs with
  | [] => Some t
  | (test_id, s) :: rs' =>
      match (if is_fail_like s then account_failure t work_id run_number test_id else Some t) with
      | None => None
      | Some t' => account_one t' work_id run_number rs'
      end
  end.
(* :185-204 *)
Fixpoint account_results (t : tracker) (rs : list aresult) : option tracker :=
  match rs with
  | [] => Some t
  | r :: rs' =>
      match account_one t (ar_work r) (ar_run r) (ar_results r) with
      | None => None
      | Some t1 => match note_accounted_result (tr_state t1) (ar_work r) with
                   | None => None
                   | Some s => account_results (set_state t1 s) rs'
                   end
      end
  end.

(* :279-291 *)
Definition failing_subset (es : list entry) (run_number : nat) : list spec :=
  flat_map (fun e => match e_status e with
                     | AlwaysFailedOn last => if Nat.eqb last run_number then [e_spec e] else []
                     | HasNonFailingAttempt => []
                     end) es.

(* :233-276 *)
Definition try_assemble (t : tracker) : tracker * option bundle :=
  if Nat.eqb (tr_current t) (tr_max t) then (t, Some {| b_work := []; b_eow := true |})
  else match tr_state t with
       | NotStarted | WaitingForEndOfHydration _ _ => (t, None)
       | Hydrated _ processed =>
           if negb processed then (t, None)
           else
             let next := tr_current t + 1 in
             let subset := map (fun s => {| wt_spec := s; wt_run := next |}) (failing_subset (tr_entries t) (tr_current t)) in
             match rev subset with
             | last :: _ =>
                 ({| tr_indices := tr_indices t; tr_entries := tr_entries t; tr_max := tr_max t; tr_current := next;
                     tr_state := Hydrated (sp_id (wt_spec last)) false |},
                  Some {| b_work := subset; b_eow := false |})
             | [] => (t, Some {| b_work := []; b_eow := true |})
             end
       end.

(* ---- the fetcher, test_fetching.rs ---- *)

(* What a source of tests will answer to the requests for tests: a bundle, or (only a
   source of the out-of-process retry manifest) an error.  A source whose list has run
   out does not answer. *)
Inductive reply := Bundle (b : bundle) | SourceError.

(* :41-45; the first source is the next one (the Vec is reversed) *)
Record fetcher := { f_sources : list (list reply); f_retry : tracker }.

Inductive fetched := Tests (b : bundle) | FetchError | StillWaiting | Panic | OutOfFuel.

Definition is_nil {A} (l : list A) : bool := match l with [] => true | _ => false end.

(* :212-226: the sleep between two tries is a StillWaiting; the call goes on with the
   same state *)
Definition fetch_retries (f : fetcher) : fetcher * fetched :=
  match try_assemble (f_retry f) with
  | (t, Some b) => ({| f_sources := f_sources f; f_retry := t |}, Tests b)
  | (t, None) => ({| f_sources := f_sources f; f_retry := t |}, StillWaiting)
  end.

(* :143-229; every turn of the loop but the last takes a reply of a source *)
Fixpoint fetch_loop (fuel : nat) (f : fetcher) : fetcher * fetched :=
  match fuel with
  | 0 => (f, OutOfFuel)
  | S fuel' =>
      match f_sources f with
      | [] => fetch_retries f
      | [] :: _ => (f, StillWaiting)
      | (SourceError :: script) :: rest => ({| f_sources := script :: rest; f_retry := f_retry f |}, FetchError)
      | (Bundle b :: script) :: rest =>
          let sources := if b_eow b then rest else script :: rest in
          if is_nil (b_work b) && negb (is_nil sources)
          then fetch_loop fuel' {| f_sources := sources; f_retry := f_retry f |}
          else
            let eow := b_eow b && is_nil sources in
            match hydrate_slice (f_retry f) (b_work b) eow with
            | None => ({| f_sources := sources; f_retry := f_retry f |}, Panic)
            | Some (t, h) =>
                let f' := {| f_sources := sources; f_retry := t |} in
                match h with
                | StillHydrating | EmptyManifest => (f', Tests {| b_work := b_work b; b_eow := eow |})
                | EndOfManifest =>
                    if is_nil (b_work b) then fetch_loop fuel' f'
                    else (f', Tests {| b_work := b_work b; b_eow := false |})
                end
            end
      end
  end.

Definition fetch_next_tests (f : fetcher) : fetcher * fetched := fetch_loop (S (S (length (concat (f_sources f))))) f.

(* ---- a runner with its fetcher ---- *)

(* [w_ended]: the last call returned the end of work or an error, after which the
   producer of generic_test_runner/src/message_buffer.rs:95-121 does not call again *)
Record world := { w_fetcher : fetcher; w_answers : list bundle; w_results : list aresult; w_ended : bool; w_panicked : bool }.
Inductive event :=
| Fetch                          (* the producer calls (or goes on waiting in) get_next_tests *)
| Account (rs : list aresult).   (* results_handler.rs:41-42: a batch of results is sent *)

Definition fstep (w : world) (e : event) : world :=
  if w_panicked w then w else
  match e with
  | Fetch =>
      if w_ended w then w else
      match fetch_next_tests (w_fetcher w) with
      | (f, Tests b) => {| w_fetcher := f; w_answers := w_answers w ++ [b]; w_results := w_results w; w_ended := b_eow b; w_panicked := false |}
      | (f, FetchError) => {| w_fetcher := f; w_answers := w_answers w; w_results := w_results w; w_ended := true; w_panicked := false |}
      | (f, StillWaiting) => {| w_fetcher := f; w_answers := w_answers w; w_results := w_results w; w_ended := false; w_panicked := false |}
      | (f, Panic) | (f, OutOfFuel) => {| w_fetcher := f; w_answers := w_answers w; w_results := w_results w; w_ended := false; w_panicked := true |}
      end
  | Account rs =>
      match account_results (f_retry (w_fetcher w)) rs with
      | Some t => {| w_fetcher := {| f_sources := f_sources (w_fetcher w); f_retry := t |}; w_answers := w_answers w;
                     w_results := w_results w ++ rs; w_ended := w_ended w; w_panicked := false |}
      | None => {| w_fetcher := w_fetcher w; w_answers := w_answers w; w_results := w_results w; w_ended := w_ended w; w_panicked := true |}
      end
  end.

(* test_fetching.rs:79-91 *)
Definition start (sources : list (list reply)) (max_run_number : nat) : world :=
  {| w_fetcher := {| f_sources := sources; f_retry := new_tracker max_run_number |};
     w_answers := []; w_results := []; w_ended := false; w_panicked := false |}.

(* runner_strategy.rs:92-98 with negotiate.rs: the sources of a new worker and of one
   that retries *)
Definition fresh_sources (queue : list reply) : list (list reply) := [queue].
Definition retry_sources (retry_manifest : reply) (queue : list reply) : list (list reply) := [[retry_manifest]; queue].
