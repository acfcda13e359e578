(** base/write/mod.rs 174-179 and io/offset.rs 38-40: [inner_mut] hands out the sink itself. What the caller
    then writes to it goes past the offset writer: the offset is not counted up. *)
From Verif Require Import Base IO EntryReader Writer.

(** the caller writes [b] to the inner writer, which takes all of it *)
Definition inner_write (b : bytes) (w : world) : world :=
  {| w_sink := {| k_written := k_written (w_sink w) ++ b; k_flushes := k_flushes (w_sink w); k_closes := k_closes (w_sink w);
                  k_sched := k_sched (w_sink w) |};
     w_offset := w_offset w; w_cds := w_cds w; w_force_no := w_force_no w; w_zip64 := w_zip64 w; w_comment := w_comment w |}.
(** a session with such a write between two calls *)
Definition run_meddled (cd : codec) (sched : list wevent) (l1 : list wop) (b : bytes) (l2 : list wop) : list (wop * res unit) * res unit * world :=
  let '(xs, w) := run_ops cd l1 (zw_new sched) in
  let '(ys, w') := run_ops cd l2 (inner_write b w) in
  let '(r, w'') := zw_close w' in
  (xs ++ ys, r, w'').
