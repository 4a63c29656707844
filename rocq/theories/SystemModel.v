(* Model of a whole test run: the queue of JobQueueModel and any number of runners of
   RunnerModel that get their tests from it.
   The manifest is in the queue from the start: a worker asks for tests only after it was
   told so (crates/abq_queue/src/queue.rs:845-852, C11).  Requests and responses are not
   lost (for that see ConnModel, C35), runs are not cancelled (for that see CancelRunModel, C93), and the
   workers are new ones, whose only source of tests is the queue (runner_strategy.rs:92-93).
   A worker with several runners is several runners here. *)
From Verif Require Import Base JobQueueModel.
From Verif Require Import StatusModel FetchModel RunnerModel.

(* queue.rs:719-727: the queue holds each test for its first attempt *)
Definition fresh (id : nat) : wtest := {| wt_spec := {| sp_id := id; sp_focus := None |}; wt_run := INIT_RUN_NUMBER |}.

(* what a runner is started with: its entity, the batch size, the maximal run number
   (crates/abq_workers/src/runner_strategy.rs:80-108) *)
Record params := { p_tag : tag; p_batch : nat; p_max : nat }.

Record slot := {
  sl_params : params;
  sl_pending : option nat;     (* the number of its request that is not answered yet *)
  sl_taken : list nat;         (* ghost: the numbers of its answered requests *)
  sl_runner : runner
}.

Record system := { y_queue : JobQueueModel.state; y_slots : list slot }.

(* the response of the queue gets to the source that asked for it,
   crates/abq_workers/src/test_fetching/persistent_test_fetcher.rs:60-130 *)
Definition feed (b : FetchModel.bundle) (s : runner) : runner :=
  let w := r_world s in
  let f := w_fetcher w in
  let sources := match f_sources f with [script] => [script ++ [Bundle b]] | ss => ss end in
  set_prod s {| w_fetcher := {| f_sources := sources; f_retry := f_retry f |}; w_answers := w_answers w;
                w_results := w_results w; w_ended := w_ended w; w_panicked := w_panicked w |}
           (r_prod s) (r_chan s) (r_refills s).

(* the fetcher is at test_fetching.rs:157-162 with the queue as its source, waiting for
   the response to a request *)
Definition asking (s : runner) : bool :=
  match r_prod s, f_sources (w_fetcher (r_world s)) with PFetch, [[]] => true | _, _ => false end.

Definition with_slot (y : system) (q : JobQueueModel.state) (i : nat) (sl : slot) : system :=
  {| y_queue := q; y_slots := upd i sl (y_slots y) |}.

Inductive sevent :=
| Ask (i : nat)                (* runner i sends a request for tests *)
| QStep (k : nat)              (* the queue goes on with request k *)
| Reply (i : nat)              (* runner i gets the response to its request *)
| Go (i : nat) (e : revent).   (* a task of runner i goes on *)

Section System.
Variable c : config nat.       (* the manifest, by work ids, and the strategy *)

(* queue.rs:856-901: the response to a request *)
Definition answer_of (t : thread) : option FetchModel.bundle :=
  match eow_of c t with
  | Some e => Some {| b_work := map fresh (JobQueueModel.bundle c t); b_eow := e |}
  | None => None
  end.

Definition sstep (y : system) (e : sevent) : system :=
  match e with
  | Ask i =>
      match nth_error (y_slots y) i with
      | Some sl =>
          match sl_pending sl with
          | None =>
              if asking (sl_runner sl) && negb (Nat.eqb (p_batch (sl_params sl)) 0)
              then with_slot y (JobQueueModel.step c (y_queue y) (Arrive (p_tag (sl_params sl)) (p_batch (sl_params sl)))) i
                     {| sl_params := sl_params sl; sl_pending := Some (length (st_threads (y_queue y)));
                        sl_taken := sl_taken sl; sl_runner := sl_runner sl |}
              else y
          | Some _ => y
          end
      | None => y
      end
  | QStep k => {| y_queue := JobQueueModel.step c (y_queue y) (Step k); y_slots := y_slots y |}
  | Reply i =>
      match nth_error (y_slots y) i with
      | Some sl =>
          match sl_pending sl with
          | Some k =>
              match nth_error (st_threads (y_queue y)) k with
              | Some t =>
                  match answer_of t with
                  | Some b => with_slot y (y_queue y) i
                                {| sl_params := sl_params sl; sl_pending := None; sl_taken := sl_taken sl ++ [k];
                                   sl_runner := feed b (sl_runner sl) |}
                  | None => y
                  end
              | None => y
              end
          | None => y
          end
      | None => y
      end
  | Go i e =>
      match nth_error (y_slots y) i with
      | Some sl => with_slot y (y_queue y) i
                     {| sl_params := sl_params sl; sl_pending := sl_pending sl; sl_taken := sl_taken sl;
                        sl_runner := rstep (p_batch (sl_params sl)) (sl_runner sl) e |}
      | None => y
      end
  end.

(* all runners have started, none has asked for tests *)
Definition sinit (ps : list params) : system :=
  {| y_queue := JobQueueModel.init c;
     y_slots := map (fun p => {| sl_params := p; sl_pending := None; sl_taken := [];
                                 sl_runner := rinit [[]] (p_max p) |}) ps |}.
End System.
