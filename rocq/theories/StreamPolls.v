(** base/write/entry_stream.rs 288-306: the stream writer as an [AsyncWrite], polled by the caller in any order. A poll that
    is pending may be given up, and an error need not stop the caller. Only streams whose data goes through as it is
    ([CompressedAsyncWriter::Stored], which precompressed streams use too); for the others see EncoderPolls. *)
From Verif Require Import Base Crc32 Headers Entry IO EntryReader Writer.

Inductive poll_call := PollWrite (b : bytes) | PollWriteVectored (bs : list bytes) | PollFlush | PollClose.

(** entry_stream.rs 289-297, io/offset.rs 47-56 (the outer one), compressed_writer.rs 74, 130-132 *)
Definition raw_poll_write {cd} (sw : stream_writer cd) (b : bytes) (w : world) : wpoll * stream_writer cd * world :=
  match ow_poll_write b w with
  | (WDone n, w') => (WDone n, sw_advance sw (hasher_update (sw_hasher sw) (take n b)) (sw_uoffset sw + n) (sw_enc sw), w')
  | (p, w') => (p, sw, w')
  end.
(** The stream writer does not define [poll_write_vectored]: futures-io writes the first buffer that is not empty. *)
Fixpoint first_buffer (bs : list bytes) : bytes :=
  match bs with
  | [] => []
  | [] :: r => first_buffer r
  | b :: _ => b
  end.
Definition raw_poll {cd} (c : poll_call) (sw : stream_writer cd) (w : world) : wpoll * stream_writer cd * world :=
  match c with
  | PollWrite b => raw_poll_write sw b w
  | PollWriteVectored bs => raw_poll_write sw (first_buffer bs) w
  | PollFlush => let '(p, w') := ow_poll_flush w in (p, sw, w')     (* 299-301, compressed_writer.rs 90, 134-136 *)
  | PollClose => (WDone 0, sw, w)                                   (* 303-305, compressed_writer.rs 106, 138-140 *)
  end.
Fixpoint raw_polls {cd} (l : list poll_call) (sw : stream_writer cd) (w : world) : list (poll_call * wpoll) * stream_writer cd * world :=
  match l with
  | [] => ([], sw, w)
  | c :: r =>
    let '(p, sw1, w1) := raw_poll c sw w in
    let '(xs, sw2, w2) := raw_polls r sw1 w1 in
    ((c, p) :: xs, sw2, w2)
  end.

(** a session in which streams may also be polled; [closed] tells whether the stream writer is closed (the inherent [close])
    or dropped at the end *)
Inductive step := Call (o : wop) | Polled (pre : bool) (e : zentry) (l : list poll_call) (closed : bool).
Definition run_step (cd : codec) (s : step) (w : world) : res unit * list (poll_call * wpoll) * world :=
  match s with
  | Call o => let '(r, w') := run_op cd o w in (r, [], w')
  | Polled pre e l closed =>
    match stream_open cd pre e w with
    | (Ok sw, w1) =>
      let '(xs, sw', w2) := raw_polls l sw w1 in
      let '(r, w3) := (if closed then stream_close sw' else ret tt) w2 in
      (r, xs, w3)
    | (Err x, w1) => (Err x, [], w1)
    | (Panic p, w1) => (Panic p, [], w1)
    end
  end.
Fixpoint run_steps (cd : codec) (l : list step) (w : world) : list (step * (res unit * list (poll_call * wpoll))) * world :=
  match l with
  | [] => ([], w)
  | s :: l =>
    let '(r, xs, w') := run_step cd s w in
    let '(outs, w'') := run_steps cd l w' in
    ((s, (r, xs)) :: outs, w'')
  end.
