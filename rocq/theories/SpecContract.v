(** The contract between a caller that polls and the reader or writer that is polled. *)
From Verif Require Import Base IO EntryReader Writer ReaderPolls StreamPolls.

(** the room in the buffers of a call; the bytes offered by one *)
Definition room (c : read_call) : N := match c with PollRead n => n | PollReadVectored ns => fold_right N.add 0 ns end.
Definition offered (c : poll_call) : bytes := match c with PollWrite b => b | PollWriteVectored bs => concat bs | _ => [] end.
(** the same reader, and the same writer, later: only an answer of the source, or of the sink, was used *)
Definition r_waited (r : ereader) (q : list revent) : ereader :=
  {| er_src := {| s_data := s_data (er_src r); s_pos := s_pos (er_src r); s_sched := q |}; er_limit := er_limit r; er_comp := er_comp r;
     er_out := er_out r; er_fin := er_fin r; er_hash := er_hash r |}.
Definition w_waited (w : world) (q : list wevent) : world :=
  {| w_sink := {| k_written := k_written (w_sink w); k_flushes := k_flushes (w_sink w); k_closes := k_closes (w_sink w); k_sched := q |};
     w_offset := w_offset w; w_cds := w_cds w; w_force_no := w_force_no w; w_zip64 := w_zip64 w; w_comment := w_comment w |}.
