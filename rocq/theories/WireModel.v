(* Model of the framing of messages: crates/abq_utils/src/net_protocol.rs:931-1362.
   A message type with its derived serialisation is a JSON value (JsonModel).
   Lengths that are compared with or cast to machine integers are in Z.
   Writers of bytes (write_all, flush) either deliver the whole frame or fail; a
   failed write is a shorter stream. *)
From Verif Require Import Base JsonModel.
Local Open Scope Z_scope.

(* ---- i32 ---- *)

(* `n as i32` for a non-negative n: the low 32 bits, signed *)
Definition as_i32 (n : Z) : Z := (n + 2 ^ 31) mod 2 ^ 32 - 2 ^ 31.
(* `n as u32` for an i32 n *)
Definition as_u32 (n : Z) : Z := n mod 2 ^ 32.
(* i32::to_be_bytes *)
Definition to_be_bytes (n : Z) : bytes :=
  let u := n mod 2 ^ 32 in
  [Z.to_nat (u / 2 ^ 24); Z.to_nat (u / 2 ^ 16 mod 256); Z.to_nat (u / 2 ^ 8 mod 256); Z.to_nat (u mod 256)].
(* i32::from_be_bytes of a [u8; 4] (any other length is a type error in the code) *)
Definition from_be_bytes (b : bytes) : Z :=
  as_i32 (fold_left (fun acc x => acc * 256 + Z.of_nat x) b 0).

(* :933 *)
Definition LARGE_MESSAGE_SIZE : Z := 1000000.

Section Wire.
(* flate2, :942-954: compression cannot fail in memory; decompression can *)
Context (gz_encode : bytes -> bytes) (gz_decode : bytes -> option bytes).

(* ---- writing ---- *)

(* :1349-1362; [compress_large] is COMPRESS_LARGE *)
Definition write_message_bytes_help (compress_large : bool) (msg : json) : bytes * bool :=
  let msg_json := write msg in
  if compress_large && (LARGE_MESSAGE_SIZE <? Z.of_nat (length msg_json))
  then (gz_encode msg_json, true) else (msg_json, false).

(* :1029-1035 and :1270-1276: the size, negated if compressed; `*= -1` of i32::MIN
   wraps (it panics in builds with overflow checks) *)
Definition size_header (len : Z) (compressed : bool) : bytes :=
  let msg_size := as_i32 len in
  to_be_bytes (if compressed then - msg_size else msg_size).

(* :1026-1047 (write) with compress_large = true, and :1260-1294 (async_write_help) *)
Definition frame (compress_large : bool) (msg : json) : bytes :=
  let '(msg_bytes, compressed) := write_message_bytes_help compress_large msg in
  size_header (Z.of_nat (length msg_bytes)) compressed ++ msg_bytes.

(* ---- sizes as read: :972-974, :1132-1140 ---- *)
Definition read_size (size_buf : bytes) : nat * bool :=
  let raw_size := from_be_bytes size_buf in (Z.to_nat (Z.abs raw_size), raw_size <? 0).

(* :979-984, :1172-1178 *)
Definition parse (needs_decompression : bool) (msg_buf : bytes) : option json :=
  if needs_decompression
  then match gz_decode msg_buf with Some b => read_json b | None => None end
  else read_json msg_buf.

Inductive error := UnexpectedEof | TimedOut | IoFailed | BadMessage.

(* ---- the blocking reader ---- *)

(* One turn of the loop in read_exact_help: what the clock and the transport do.
   [Got n]: some bytes are there, and at most n of them are given (at least one);
   if the transport has none left it reports the end of the stream if the peer
   closed it, and otherwise the read does not return. *)
Inductive turn := Got (n : nat) | Interrupted | WouldBlock | Broken | Elapsed.

Definition chunk (n cap : nat) (stream : bytes) : nat := Nat.min (Nat.max 1 n) (Nat.min cap (length stream)).

Inductive outcome (A : Type) := Done (a : A) (stream : bytes) (turns : list turn) | Failed (e : error) | Waiting.
Arguments Done {A}. Arguments Failed {A}. Arguments Waiting {A}.

(* :987-1023; [got] is the filled part of the buffer and [need] the length of the rest;
   [timed] is false for Duration::MAX *)
Fixpoint read_exact_help (closed timed : bool) (need : nat) (got : bytes) (stream : bytes) (turns : list turn)
  : outcome bytes :=
  match need with
  | O => Done got stream turns
  | S _ =>
      match turns with
      | [] => Waiting
      | t :: turns' =>
          match t with
          | Elapsed => if timed then Failed TimedOut else read_exact_help closed timed need got stream turns'
          | Interrupted | WouldBlock => read_exact_help closed timed need got stream turns'
          | Broken => Failed IoFailed
          | Got n =>
              match stream with
              | [] => if closed then Failed UnexpectedEof else read_exact_help closed timed need got stream turns'
              | _ => let k := chunk n need stream in
                     read_exact_help closed timed (need - k)%nat (got ++ firstn k stream) (skipn k stream) turns'
              end
          end
      end
  end.

(* :963-985 *)
Definition read_help (closed : bool) (stream : bytes) (turns : list turn) : outcome json :=
  match read_exact_help closed false 4 [] stream turns with
  | Waiting => Waiting
  | Failed e => Failed e
  | Done msg_size_buf stream1 turns1 =>
      let '(msg_size, needs_decompression) := read_size msg_size_buf in
      match read_exact_help closed true msg_size [] stream1 turns1 with
      | Waiting => Waiting
      | Failed e => Failed e
      | Done msg_buf stream2 turns2 =>
          match parse needs_decompression msg_buf with
          | Some msg => Done msg stream2 turns2
          | None => Failed BadMessage
          end
      end
  end.

(* ---- the asynchronous reader ---- *)

(* :1069-1085; [r_expires] is next_expiration.is_some() *)
Record reader := { r_size_buf : bytes; r_msg_size : option (nat * bool); r_msg_buf : bytes; r_read : nat; r_expires : bool }.

(* :1094-1103 *)
Definition new_reader : reader :=
  {| r_size_buf := repeat 0%nat 4; r_msg_size := None; r_msg_buf := []; r_read := 0; r_expires := false |}.

(* buf[off..off+|b|] = b *)
Definition store_at (buf : bytes) (off : nat) (b : bytes) : bytes :=
  firstn off buf ++ b ++ skipn (off + length b) buf.

(* :1118-1157: from the top of the loop to the read *)
Definition prime (r : reader) : reader :=
  match r_msg_size r with
  | None => r
  | Some (size, _) =>
      {| r_size_buf := r_size_buf r; r_msg_size := r_msg_size r;
         r_msg_buf := if Nat.eqb (r_read r) 0 then r_msg_buf r ++ repeat 0%nat size else r_msg_buf r;
         r_read := r_read r; r_expires := true |}
  end.

(* the length of the buffer given to the read, :1125, :1160 *)
Definition room (r : reader) : nat :=
  match r_msg_size r with
  | None => length (r_size_buf r) - r_read r
  | Some _ => length (r_msg_buf r) - r_read r
  end.

(* what a call of next returns *)
Inductive answer := Message (msg : json) (size : nat) | Error (e : error).

(* :1125-1142 and :1159-1188: after a read that gave the bytes [b] *)
Definition on_read (r : reader) (b : bytes) : reader * option answer :=
  match r_msg_size r with
  | None =>
      if Nat.eqb (length b) 0 then (r, Some (Error UnexpectedEof))
      else
        let size_buf := store_at (r_size_buf r) (r_read r) b in
        let read := (r_read r + length b)%nat in
        if Nat.eqb read 4
        then ({| r_size_buf := size_buf; r_msg_size := Some (read_size size_buf); r_msg_buf := r_msg_buf r;
                 r_read := 0; r_expires := r_expires r |}, None)
        else ({| r_size_buf := size_buf; r_msg_size := None; r_msg_buf := r_msg_buf r;
                 r_read := read; r_expires := r_expires r |}, None)
  | Some (size, needs_decompression) =>
      let msg_buf := store_at (r_msg_buf r) (r_read r) b in
      let read := (r_read r + length b)%nat in
      if Nat.eqb read size
      then match parse needs_decompression msg_buf with
           | None => ({| r_size_buf := r_size_buf r; r_msg_size := r_msg_size r; r_msg_buf := msg_buf;
                         r_read := read; r_expires := r_expires r |}, Some (Error BadMessage))
           | Some msg => ({| r_size_buf := r_size_buf r; r_msg_size := None; r_msg_buf := [];
                             r_read := 0; r_expires := false |}, Some (Message msg size))
           end
      else ({| r_size_buf := r_size_buf r; r_msg_size := r_msg_size r; r_msg_buf := msg_buf;
               r_read := read; r_expires := r_expires r |}, None)
  end.

(* One connection and its reader.  [w_stream] is what the peer has sent and will send
   and has not been read; [w_calling] tells whether a call of next is in progress;
   [w_failed] that a call has returned an error (the reader is then given up);
   [w_out] lists what the calls returned. *)
Record world := { w_stream : bytes; w_reader : reader; w_calling : bool; w_failed : bool; w_out : list answer }.

Inductive event :=
| Call                 (* next is called *)
| Cancel               (* the future of the call is dropped *)
| Bytes (n : nat)      (* the read returns at most n (at least one) bytes; 0 bytes at the end of a closed stream *)
| Expire               (* the sleep of the select ends; only raced against the reads of the body *)
| Break.               (* the read returns an error *)

Definition fail (w : world) (e : error) : world :=
  {| w_stream := w_stream w; w_reader := w_reader w; w_calling := false; w_failed := true; w_out := w_out w ++ [Error e] |}.

Definition deliver (w : world) (k : nat) : world :=
  let b := firstn k (w_stream w) in
  match on_read (w_reader w) b with
  | (r, None) => {| w_stream := skipn k (w_stream w); w_reader := prime r; w_calling := true; w_failed := false; w_out := w_out w |}
  | (r, Some (Error e)) =>
      {| w_stream := skipn k (w_stream w); w_reader := r; w_calling := false; w_failed := true; w_out := w_out w ++ [Error e] |}
  | (r, Some (Message m size)) =>
      {| w_stream := skipn k (w_stream w); w_reader := r; w_calling := false; w_failed := false; w_out := w_out w ++ [Message m size] |}
  end.

Definition wstep (closed : bool) (w : world) (e : event) : world :=
  if w_failed w then w else
  match e with
  | Call => if w_calling w then w else
      {| w_stream := w_stream w; w_reader := prime (w_reader w); w_calling := true; w_failed := false; w_out := w_out w |}
  | Cancel => if w_calling w then
      {| w_stream := w_stream w; w_reader := w_reader w; w_calling := false; w_failed := false; w_out := w_out w |} else w
  | Bytes n => if w_calling w then
      let k := chunk n (room (w_reader w)) (w_stream w) in
      if Nat.eqb (room (w_reader w)) 0 then deliver w 0
      else match w_stream w with [] => if closed then deliver w 0 else w | _ => deliver w k end
      else w
  | Expire => if w_calling w then match r_msg_size (w_reader w) with Some _ => fail w TimedOut | None => w end else w
  | Break => if w_calling w then fail w IoFailed else w
  end.

Definition connect (stream : bytes) : world :=
  {| w_stream := stream; w_reader := new_reader; w_calling := false; w_failed := false; w_out := [] |}.
End Wire.
Arguments Done {A}. Arguments Failed {A}. Arguments Waiting {A}.

(* ---- streams of a declared length ---- *)

(* :1301-1327; tokio::io::copy copies the whole of the stream *)
Definition async_write_stream (stream_length : Z) (stream : bytes) : bytes :=
  to_be_bytes (as_i32 stream_length) ++ stream.

(* :1333-1346: the bytes that reading the returned Take to its end gives, and the rest;
   None if the stream ends within the header *)
Definition async_read_stream (b : bytes) : option (bytes * bytes) :=
  if Nat.ltb (length b) 4 then None
  else let size := as_u32 (from_be_bytes (firstn 4 b)) in
       let body := skipn 4 b in
       Some (firstn (Z.to_nat size) body, skipn (Z.to_nat size) body).
