(** base/write/io/offset.rs: the offset writer as an [AsyncWrite] of its own, polled in any order, with the vectored write
    that nothing in the crate calls. *)
From Verif Require Import Base IO Writer.

(** [AsyncWrite::poll_write_vectored] of the caller's writer: it may take any part of what the buffers hold together. *)
Definition sink_poll_write_vectored (bufs : list bytes) (k : sink) : wpoll * sink := sink_poll_write (concat bufs) k.

(** offset.rs 66-72 [poll_write_vectored]: forwarded, and not counted *)
Definition ow_poll_write_vectored (bufs : list bytes) (w : world) : wpoll * world :=
  let '(p, k) := sink_poll_write_vectored bufs (w_sink w) in (p, set_sink w k (w_offset w)).

Inductive ow_call := OwWrite (b : bytes) | OwFlush | OwClose | OwVectored (bufs : list bytes).
Definition ow_poll (c : ow_call) (w : world) : wpoll * world :=
  match c with
  | OwWrite b => ow_poll_write b w
  | OwFlush => ow_poll_flush w
  | OwClose => ow_poll_close w
  | OwVectored bufs => ow_poll_write_vectored bufs w
  end.
Fixpoint ow_polls (l : list ow_call) (w : world) : list (ow_call * wpoll) * world :=
  match l with
  | [] => ([], w)
  | c :: r => let '(p, w1) := ow_poll c w in let '(xs, w2) := ow_polls r w1 in ((c, p) :: xs, w2)
  end.
