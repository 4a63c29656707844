(* Model of a whole test run whose worker processes are killed and started again.  It is the
   run of SystemModel with processes that come and go: a worker of a tag that the queue has
   seen before first gets the tests that were handed out to its tag, then goes on with the
   queue (runner_strategy.rs:92-98, crates/abq_workers/src/test_fetching.rs:143-229).
   The state of the run at the queue is that of a manifest with work.  Once all of it is
   handed out, the retry manifest comes from the persisted one instead, which has the same
   tests (C06, C21), and requests for tests get an empty end of work, as here.
   A worker with several runners is several runners here. *)
From Verif Require Import Base JobQueueModel.
From Verif Require Import StatusModel FetchModel RunnerModel SystemModel.

Record proc := {
  q_params : params;
  q_gone : bool;                        (* the process has ended, for whatever reason *)
  q_retry : option (option (list nat)); (* None: its tag was new; Some None: it retries and has no
                                           retry manifest yet; Some (Some ids): it got this one *)
  q_orderly : bool;                     (* ghost: see [orderly_now]; no step reads it *)
  q_from : nat;                         (* ghost: requests received by the queue when it got its
                                           retry manifest *)
  q_pending : option nat;               (* the number of its request that is not answered yet *)
  q_taken : list nat;                   (* ghost: the numbers of its answered requests *)
  q_runner : runner
}.

Record fleet := { z_queue : JobQueueModel.state; z_procs : list proc }.

Inductive zevent :=
| Start (p : params)           (* a process is started *)
| Gone (i : nat)               (* process i is killed, or exits *)
| AskRetry (i : nat)           (* process i gets its retry manifest *)
| ZAsk (i : nat)               (* process i sends a request for tests *)
| ZQueue (k : nat)             (* the queue goes on with request k *)
| ZReply (i : nat)             (* process i gets the response to its request *)
| ZGo (i : nat) (e : revent).  (* a task of process i goes on *)

Definition same_tag (t : tag) (pr : proc) : bool := tag_eqb (p_tag (q_params pr)) t.

(* crates/abq_queue/src/queue.rs:340-510 (find_or_create_run): a worker is told to retry if
   its tag has been seen; runner_strategy.rs:92-98: the sources of its tests.
   Batch sizes are NonZeroUsize, at least one attempt is made (1 + retries), and a worker's
   tag is not that of a client that only asks. *)
Definition admissible (p : params) : bool :=
  negb (Nat.eqb (p_batch p) 0) && negb (Nat.eqb (p_max p) 0) && negb (tag_eqb (p_tag p) TExternalClient).
Definition started (ps : list proc) (p : params) : proc :=
  let again := existsb (same_tag (p_tag p)) ps in
  {| q_params := p; q_gone := false; q_retry := if again then Some None else None;
     q_orderly := false; q_from := 0; q_pending := None; q_taken := [];
     q_runner := rinit (if again then [[]; []] else [[]]) (p_max p) |}.

(* the fetcher is at test_fetching.rs:157-162 with the retry manifest as its source *)
Definition asking_retry (s : runner) : bool :=
  match r_prod s, f_sources (w_fetcher (r_world s)) with PFetch, [[]; []] => true | _, _ => false end.

(* the retry manifest gets to the source that asked for it,
   crates/abq_workers/src/test_fetching/out_of_process_retry_manifest_fetcher.rs:66-125 *)
Definition feed_retry (b : FetchModel.bundle) (s : runner) : runner :=
  let w := r_world s in
  let f := w_fetcher w in
  let sources := match f_sources f with [[]; rest] => [[Bundle b]; rest] | ss => ss end in
  set_prod s {| w_fetcher := {| f_sources := sources; f_retry := f_retry f |}; w_answers := w_answers w;
                w_results := w_results w; w_ended := w_ended w; w_panicked := w_panicked w |}
           (r_prod s) (r_chan s) (r_refills s).

Definition with_proc (z : fleet) (q : JobQueueModel.state) (i : nat) (pr : proc) : fleet :=
  {| z_queue := q; z_procs := upd i pr (z_procs z) |}.

(* a request of this tag is at the queue and not answered *)
Definition in_the_queue (t : tag) (th : thread) : bool :=
  tag_eqb (th_tag th) t && match th_pc th with PDone _ _ _ => false | _ => true end.

Section Fleet.
Variable c : config nat.       (* the manifest, by work ids, and the strategy *)

(* ghost: the other processes of the tag are gone, and the queue has answered all requests
   of the tag, whether or not somebody got the responses *)
Definition orderly_now (z : fleet) (i : nat) (t : tag) : bool :=
  forallb (fun pr => negb (same_tag t pr) || q_gone pr) (firstn i (z_procs z) ++ skipn (S i) (z_procs z)) &&
  negb (existsb (in_the_queue t) (st_threads (z_queue z))).

(* queue.rs:996-1060 (get_retry_manifest): the tests of the tag, and that these are all *)
Definition retry_manifest (z : fleet) (t : tag) : list nat := partition_for c (z_queue z) t.

Definition zstep (z : fleet) (e : zevent) : fleet :=
  match e with
  | Start p => if admissible p then {| z_queue := z_queue z; z_procs := z_procs z ++ [started (z_procs z) p] |} else z
  | Gone i =>
      match nth_error (z_procs z) i with
      | Some pr => with_proc z (z_queue z) i
                     {| q_params := q_params pr; q_gone := true; q_retry := q_retry pr; q_orderly := q_orderly pr; q_from := q_from pr;
                        q_pending := q_pending pr; q_taken := q_taken pr; q_runner := q_runner pr |}
      | None => z
      end
  | AskRetry i =>
      match nth_error (z_procs z) i with
      | Some pr =>
          if negb (q_gone pr) && asking_retry (q_runner pr)
          then let t := p_tag (q_params pr) in
               let ids := retry_manifest z t in
               with_proc z (z_queue z) i
                 {| q_params := q_params pr; q_gone := false; q_retry := Some (Some ids);
                    q_orderly := orderly_now z i t; q_from := length (st_threads (z_queue z));
                    q_pending := q_pending pr; q_taken := q_taken pr;
                    q_runner := feed_retry {| b_work := map fresh ids; b_eow := true |} (q_runner pr) |}
          else z
      | None => z
      end
  | ZAsk i =>
      match nth_error (z_procs z) i with
      | Some pr =>
          match q_pending pr with
          | None =>
              if negb (q_gone pr) && asking (q_runner pr)
              then with_proc z (JobQueueModel.step c (z_queue z) (Arrive (p_tag (q_params pr)) (p_batch (q_params pr)))) i
                     {| q_params := q_params pr; q_gone := false; q_retry := q_retry pr; q_orderly := q_orderly pr; q_from := q_from pr;
                        q_pending := Some (length (st_threads (z_queue z))); q_taken := q_taken pr; q_runner := q_runner pr |}
              else z
          | Some _ => z
          end
      | None => z
      end
  | ZQueue k => {| z_queue := JobQueueModel.step c (z_queue z) (Step k); z_procs := z_procs z |}
  | ZReply i =>
      match nth_error (z_procs z) i with
      | Some pr =>
          match q_pending pr with
          | Some k =>
              match nth_error (st_threads (z_queue z)) k with
              | Some t =>
                  match answer_of c t with
                  | Some b =>
                      if q_gone pr then z
                      else with_proc z (z_queue z) i
                             {| q_params := q_params pr; q_gone := false; q_retry := q_retry pr; q_orderly := q_orderly pr; q_from := q_from pr;
                                q_pending := None; q_taken := q_taken pr ++ [k]; q_runner := feed b (q_runner pr) |}
                  | None => z
                  end
              | None => z
              end
          | None => z
          end
      | None => z
      end
  | ZGo i e =>
      match nth_error (z_procs z) i with
      | Some pr =>
          if q_gone pr then z
          else with_proc z (z_queue z) i
                 {| q_params := q_params pr; q_gone := false; q_retry := q_retry pr; q_orderly := q_orderly pr; q_from := q_from pr;
                    q_pending := q_pending pr; q_taken := q_taken pr;
                    q_runner := rstep (p_batch (q_params pr)) (q_runner pr) e |}
      | None => z
      end
  end.

(* no process has been started *)
Definition zinit : fleet := {| z_queue := JobQueueModel.init c; z_procs := [] |}.
End Fleet.
