(* Model of the concurrent job queue of a run:
   crates/abq_queue/src/job_queue.rs:17-213 and the part of
   crates/abq_queue/src/queue.rs:856-901 that turns a pull into a response.

   Requests run concurrently under a shared (read) lock, so each request is a
   small program whose steps are the accesses to shared memory; a history is
   an arbitrary interleaving of such steps.  All atomics are SeqCst
   (crates/abq_utils/src/atomic.rs:3), so interleaving semantics is exact for
   the pointer; the per-test owner cells are plain cells, and each write is a
   separate step. *)
From Verif Require Import Base.

(* crates/abq_utils/src/net_protocol.rs, enum TestStrategy (ByTest, ByTopLevelGroup) *)
Inductive strategy := ByTest | ByTopLevelGroup.

(* GroupId (a uuid) as an opaque number; only compared for equality. *)
Definition group := nat.

(* queue.rs:213-232 (PulledTestsStatus) *)
Inductive pulled_status := MoreTestsRemaining | PulledLastTest | QueueWasEmpty.

(* queue.rs:225-232 (reached_end_of_tests) *)
Definition reached_end_of_tests (s : pulled_status) : bool :=
  match s with MoreTestsRemaining => false | PulledLastTest => true | QueueWasEmpty => true end.

(* Where a request is inside get_next_work_online (queue.rs:856-901). *)
Inductive pc :=
| PStart                          (* before touching shared memory *)
| PFetched (start : nat)          (* by-test: after fetch_add, job_queue.rs:98 *)
| PWriting (s e i : nat)          (* bounds known; owner cells s..i-1 written, :85-88 *)
| PTook (s e : nat)               (* slice taken, :90; is_at_end not yet read *)
| PDone (s e : nat) (at_end : bool)  (* response complete, queue.rs:873-900 *)
| PPanicked.                      (* slice index out of bounds *)

(* One next-tests request: who asks, with which batch size (NonZeroUsize). *)
Record thread := { th_tag : tag; th_n : nat; th_pc : pc }.

Section Queue.
Context {T : Type}.

(* The parts of JobQueue that never change after new: job_queue.rs:18,25. *)
Record config := { cf_queue : list (T * group); cf_strategy : strategy }.

(* Shared memory (ptr and assigned_entities, job_queue.rs:21-24), the requests
   made so far, and a ghost log: the request indices in the order in which they
   claimed work.  The log is not in the code and no step reads it.
   ptr is usize in the code; it is an unbounded number here, and
   JobQueueProps.ptr_never_wraps bounds it so that the wrap cannot happen. *)
Record state := { st_ptr : nat; st_owner : list tag; st_threads : list thread; st_log : list nat }.

(* job_queue.rs:47-55 (JobQueue::new): all cells ExternalClient, ptr 0. *)
Definition init (c : config) : state :=
  {| st_ptr := 0;
     st_owner := repeat TExternalClient (length (cf_queue c));
     st_threads := []; st_log := [] |}.

(* job_queue.rs:142-153: the loop of the fetch_update closure; [taken] is
   end_idx - start_idx, [cur] is current_group_id. Returns the final [taken]. *)
Fixpoint walk (cur : group) (taken n : nat) (rest : list (T * group)) : nat :=
  match rest with
  | [] => taken
  | (_, g) :: rest' =>
      if Nat.eqb g cur then walk cur (S taken) n rest'
      else if Nat.leb n taken then taken
      else walk g (S taken) n rest'
  end.

(* job_queue.rs:134-155: the closure given to fetch_update. *)
Definition group_update (q : list (T * group)) (n start : nat) : option nat :=
  match nth_error q start with
  | None => None                                   (* start_idx >= queue_len *)
  | Some (_, g) => Some (start + walk g 0 n (skipn start q))
  end.

(* job_queue.rs:86 and 90: indexing with [s..e] panics unless s <= e <= len. *)
Definition enter_slice (len s e : nat) : pc :=
  if Nat.leb s e && Nat.leb e len then PWriting s e s else PPanicked.

(* One step of one request on the shared memory. *)
Definition thread_step (c : config) (ptr : nat) (owner : list tag) (t : thread)
  : nat * list tag * pc :=
  let q := cf_queue c in
  let len := length q in
  match th_pc t with
  | PStart =>
      match cf_strategy c with
      | ByTest => (ptr + th_n t, owner, PFetched ptr)          (* job_queue.rs:98 *)
      | ByTopLevelGroup =>                                      (* job_queue.rs:133-158 *)
          match group_update q (th_n t) ptr with
          | None => (ptr, owner, enter_slice len len ptr)
          | Some e => (e, owner, enter_slice len ptr e)
          end
      end
  | PFetched start =>                                           (* job_queue.rs:99-124 *)
      let e := start + th_n t in
      if Nat.ltb len start then (len, owner, enter_slice len len len)
      else if Nat.ltb len e then (len, owner, enter_slice len start len)
      else (ptr, owner, enter_slice len start e)
  | PWriting s e i =>                                           (* job_queue.rs:86-88 *)
      if Nat.ltb i e then (ptr, upd i (th_tag t) owner, PWriting s e (S i))
      else (ptr, owner, PTook s e)
  | PTook s e => (ptr, owner, PDone s e (Nat.leb len ptr))      (* job_queue.rs:162-164 *)
  | PDone s e b => (ptr, owner, PDone s e b)
  | PPanicked => (ptr, owner, PPanicked)
  end.

(* Events of a history: a request arrives, or request k makes one step. *)
Inductive event := Arrive (who : tag) (n : nat) | Step (k : nat).

Definition claims_now (t : thread) : bool := match th_pc t with PStart => true | _ => false end.

(* Batch sizes are NonZeroUsize, so an arrival with 0 is not an event. *)
Definition step (c : config) (st : state) (ev : event) : state :=
  match ev with
  | Arrive who n =>
      if Nat.eqb n 0 then st else
      {| st_ptr := st_ptr st; st_owner := st_owner st;
         st_threads := st_threads st ++ [{| th_tag := who; th_n := n; th_pc := PStart |}];
         st_log := st_log st |}
  | Step k =>
      match nth_error (st_threads st) k with
      | None => st
      | Some t =>
          let '(ptr', owner', pc') := thread_step c (st_ptr st) (st_owner st) t in
          {| st_ptr := ptr'; st_owner := owner';
             st_threads := upd k {| th_tag := th_tag t; th_n := th_n t; th_pc := pc' |} (st_threads st);
             st_log := if claims_now t then st_log st ++ [k] else st_log st |}
      end
  end.

(* The tests put in the response of a request (job_queue.rs:90, queue.rs:867). *)
Definition bundle (c : config) (t : thread) : list T :=
  match th_pc t with
  | PDone s e _ => map fst (slice (cf_queue c) s e)
  | _ => []
  end.

(* queue.rs:871-892: status from the emptiness of the bundle and is_at_end. *)
Definition status_of (c : config) (t : thread) : option pulled_status :=
  match th_pc t with
  | PDone _ _ false => Some MoreTestsRemaining
  | PDone _ _ true =>
      match bundle c t with [] => Some QueueWasEmpty | _ => Some PulledLastTest end
  | _ => None
  end.

(* queue.rs:895: the end-of-work flag sent with the response. *)
Definition eow_of (c : config) (t : thread) : option bool := option_map reached_end_of_tests (status_of c t).

(* job_queue.rs:162-164 (is_at_end) *)
Definition is_at_end (c : config) (st : state) : bool := Nat.leb (length (cf_queue c)) (st_ptr st).

(* job_queue.rs:209-212 (read_index) *)
Definition read_index (st : state) : nat := st_ptr st.

(* job_queue.rs:177-186 (get_partition_for_entity): the cells equal to the tag,
   in index order. *)
Definition partition_for (c : config) (st : state) (who : tag) : list T :=
  map (fun p => fst (snd p))
      (filter (fun p => tag_eqb (fst p) who) (combine (st_owner st) (cf_queue c))).

(* job_queue.rs:188-207 (into_manifest_view): drop the groups, keep owners. *)
Definition manifest_view (c : config) (st : state) : list T * list tag :=
  (map fst (cf_queue c), st_owner st).

End Queue.
Arguments config T : clear implicits.
