(* Model of how the output of a native runner is captured:
   crates/abq_utils/src/capture_output/muxer.rs and capture_pipes.rs.

   Two tasks (one per stream) copy the child's output through a Muxer; the owner
   of the CapturePipes drains and closes it concurrently.  The steps interleave at
   the accesses of the side channels' locks.  tokio::io::AsyncWriteExt::write_all
   and tokio::io::copy are modelled by their contracts: write_all writes the
   buffer with as many poll_writes as it takes, copy reads a chunk (possibly
   while an earlier one is still being written) and writes everything it read;
   both fail on a write of zero bytes and on errors. *)
From Verif Require Import Base.

Definition byte := nat.

(* Answers of the parent's poll_write (only for a nonempty buffer). *)
Inductive write_answer := WPending | WWrote (n : nat) | WError.

(* Where the copying task of a stream is.
   CWrite todo header: todo is read (or the header of muxer.rs:132, if header is
     true) and not yet accepted by the parent;
   CPush b comb todo header: in muxer.rs:45-51, the parent accepted b; comb says
     that the stream's own side channel has it already;
   CEnd ok: the task is gone, and its references to the side channels with it. *)
Inductive copy_pc :=
| CWrite (todo : list byte) (header : bool)
| CPush (b : list byte) (comb : bool) (todo : list byte) (header : bool)
| CEnd (ok : bool).

(* Answers of get_captured and get_captured_ref. *)
Inductive capture := CDrained (b : list byte) | CPeeked (b : list byte).

(* One stream: the task; the header; what was read from the child so far and what
   the parent accepted so far (ghosts); the stream's own side channel; the answers
   given so far; whether the task was aborted (its handle replaced). *)
Record stream := { k_pc : copy_pc; k_header : list byte; k_child : list byte; k_parent : list byte;
                   k_side : list byte; k_log : list capture; k_aborted : bool }.

(* What finish returned. *)
Inductive final := FOutput (out err comb : list byte) | FError | FPanic.

(* capture_pipes.rs:8-12: false is stdout, true is stderr. *)
Record pipes := { p_out : stream; p_err : stream; p_comb : list byte; p_piped : bool; p_final : option final }.

(* muxer.rs:119-132 *)
Definition new_stream (header : list byte) : stream :=
  {| k_pc := CWrite header true; k_header := header; k_child := []; k_parent := [];
     k_side := []; k_log := []; k_aborted := false |}.

(* capture_pipes.rs:15-42 *)
Definition new_pipes (retry_header : list byte) (piped is_retry : bool) : pipes :=
  {| p_out := new_stream (if is_retry then retry_header else []); p_err := new_stream [];
     p_comb := []; p_piped := piped; p_final := None |}.

Inductive cevent :=
| CWriteStep (w : bool) (a : write_answer)  (* the task polls the parent *)
| CPushStep (w : bool)                      (* the task appends to a side channel *)
| CRead (w : bool) (chunk : list byte)      (* the child's pipe has data (nonempty) *)
| CEof (w : bool) (ok : bool)               (* ... has ended, or failed *)
| CDrain (w : bool)                         (* get_captured on one of the streams *)
| CPeek (w : bool)                          (* get_captured_ref *)
| CClose                                    (* close *)
| CDropTask (w : bool)                      (* the runtime drops an aborted task *)
| CFinish.                                  (* finish, once the tasks it waits for are over *)

Definition which (w : bool) (p : pipes) : stream := if w then p_err p else p_out p.
Definition set_stream (w : bool) (k : stream) (comb : list byte) (p : pipes) : pipes :=
  {| p_out := if w then p_out p else k; p_err := if w then k else p_err p; p_comb := comb;
     p_piped := p_piped p; p_final := p_final p |}.
Definition set_pc (pc : copy_pc) (k : stream) : stream :=
  {| k_pc := pc; k_header := k_header k; k_child := k_child k; k_parent := k_parent k;
     k_side := k_side k; k_log := k_log k; k_aborted := k_aborted k |}.

(* muxer.rs:35-53 up to the side channels: n bytes accepted of the buffer *)
Definition accept (todo : list byte) (header : bool) (n : nat) (k : stream) : stream :=
  {| k_pc := CPush (firstn n todo) false (skipn n todo) header; k_header := k_header k; k_child := k_child k;
     k_parent := k_parent k ++ firstn n todo; k_side := k_side k; k_log := k_log k; k_aborted := k_aborted k |}.

(* muxer.rs:40-43: without a parent, everything is written at once *)
Definition parent_answer (piped : bool) (todo : list byte) (a : write_answer) : write_answer :=
  if piped then a else WWrote (length todo).

Definition ended (k : stream) : bool := match k_pc k with CEnd _ => true | _ => false end.

(* Awaiting the handle of capture_pipes.rs:100-101: None while it is not ready.
   After close the handle is that of a trivial task. *)
Definition awaited (k : stream) : option bool :=
  if k_aborted k then Some true
  else match k_pc k with CEnd ok => Some ok | _ => None end.

Definition set_final (f : final) (p : pipes) : pipes :=
  {| p_out := p_out p; p_err := p_err p; p_comb := p_comb p; p_piped := p_piped p; p_final := Some f |}.

Definition abort (k : stream) : stream :=
  {| k_pc := k_pc k; k_header := k_header k; k_child := k_child k; k_parent := k_parent k;
     k_side := k_side k; k_log := k_log k; k_aborted := true |}.

Definition cstep (p : pipes) (ev : cevent) : pipes :=
  match ev with
  | CWriteStep w a =>
      let k := which w p in
      match k_pc k with
      | CWrite [] true => set_stream w (set_pc (CWrite [] false) k) (p_comb p) p   (* write_all is over *)
      | CWrite todo header =>
          match todo, parent_answer (p_piped p) todo a with
          | [], _ => p
          | _, WPending => p
          | _, WError => set_stream w (set_pc (CEnd false) k) (p_comb p) p
          | _, WWrote n =>
              if Nat.ltb (length todo) n then p             (* not an answer of poll_write *)
              else if Nat.eqb n 0 then set_stream w (set_pc (CEnd false) k) (p_comb p) p
              else set_stream w (accept todo header n k) (p_comb p) p
          end
      | _ => p
      end
  (* muxer.rs:48-50, 156-159 *)
  | CPushStep w =>
      let k := which w p in
      match k_pc k with
      | CPush b false todo header =>
          set_stream w {| k_pc := CPush b true todo header; k_header := k_header k; k_child := k_child k;
                          k_parent := k_parent k; k_side := k_side k ++ b; k_log := k_log k;
                          k_aborted := k_aborted k |} (p_comb p) p
      | CPush b true todo header =>
          set_stream w (set_pc (CWrite todo header) k) (p_comb p ++ b) p
      | _ => p
      end
  (* muxer.rs:134 *)
  | CRead w chunk =>
      let k := which w p in
      match k_pc k with
      | CWrite todo false =>
          set_stream w {| k_pc := CWrite (todo ++ chunk) false; k_header := k_header k;
                          k_child := k_child k ++ chunk; k_parent := k_parent k; k_side := k_side k;
                          k_log := k_log k; k_aborted := k_aborted k |} (p_comb p) p
      | _ => p
      end
  (* copy has written all it read when it ends well *)
  | CEof w ok =>
      let k := which w p in
      match k_pc k with
      | CWrite [] false => set_stream w (set_pc (CEnd ok) k) (p_comb p) p
      | CWrite _ false => if ok then p else set_stream w (set_pc (CEnd false) k) (p_comb p) p
      | _ => p
      end
  (* muxer.rs:161-165, capture_pipes.rs:65-71 *)
  | CDrain w =>
      match p_final p with
      | Some _ => p
      | None =>
          let k := which w p in
          set_stream w {| k_pc := k_pc k; k_header := k_header k; k_child := k_child k; k_parent := k_parent k;
                          k_side := []; k_log := k_log k ++ [CDrained (k_side k)]; k_aborted := k_aborted k |}
                     (p_comb p) p
      end
  (* muxer.rs:170-173, capture_pipes.rs:73-78 *)
  | CPeek w =>
      match p_final p with
      | Some _ => p
      | None =>
          let k := which w p in
          set_stream w {| k_pc := k_pc k; k_header := k_header k; k_child := k_child k; k_parent := k_parent k;
                          k_side := k_side k; k_log := k_log k ++ [CPeeked (k_side k)]; k_aborted := k_aborted k |}
                     (p_comb p) p
      end
  (* capture_pipes.rs:80-87 *)
  | CClose =>
      match p_final p with
      | Some _ => p
      | None => {| p_out := abort (p_out p); p_err := abort (p_err p); p_comb := p_comb p;
                   p_piped := p_piped p; p_final := None |}
      end
  (* a task is dropped between two polls, never in the middle of poll_write *)
  | CDropTask w =>
      let k := which w p in
      match k_pc k with
      | CWrite _ _ => if k_aborted k then set_stream w (set_pc (CEnd false) k) (p_comb p) p else p
      | _ => p
      end
  (* capture_pipes.rs:89-117, muxer.rs:180-185: the references to a side channel
     are those of the tasks that write to it *)
  | CFinish =>
      match p_final p with
      | Some _ => p
      | None =>
          match awaited (p_out p), awaited (p_err p) with
          | Some false, _ => set_final FError p
          | Some true, Some false => set_final FError p
          | Some true, Some true =>
              if ended (p_out p) && ended (p_err p)
              then set_final (FOutput (k_side (p_out p)) (k_side (p_err p)) (p_comb p)) p
              else set_final FPanic p
          | _, _ => p
          end
      end
  end.
