(** The entry reader polled through [AsyncRead] by the caller. *)
From Verif Require Import Base Headers Entry IO Reader EntryReader.

(** [poll_read] with a buffer of [n] bytes; [poll_read_vectored] with buffers of the given sizes *)
Inductive read_call := PollRead (n : N) | PollReadVectored (ns : list N).

(** futures-io [AsyncRead::poll_read_vectored] (default, not overridden in entry.rs 54-61): the first buffer with room *)
Fixpoint first_room (ns : list N) : N :=
  match ns with [] => 0 | n :: r => if n =? 0 then first_room r else n end.

Definition er_poll (cd : codec) (c : read_call) (r : ereader) : rpoll * ereader :=
  match c with
  | PollRead n => er_poll_read cd n r
  | PollReadVectored ns => er_poll_read cd (first_room ns) r
  end.

(** a caller that polls as often as it likes, whatever the polls say *)
Fixpoint er_polls (cd : codec) (l : list read_call) (r : ereader) : list (read_call * rpoll) * ereader :=
  match l with
  | [] => ([], r)
  | c :: l => let '(p, r) := er_poll cd c r in let '(ps, r) := er_polls cd l r in ((c, p) :: ps, r)
  end.

(** one use of a shared seekable source: open an entry, poll, drop the reader *)
Definition polled_use (cd : codec) (f : zfile) (u : N * list read_call) (s : source) : (res stored_entry * list (read_call * rpoll)) * source :=
  match seek_reader_at f (fst u) s with
  | (Ok (r, e), _) => let '(ps, r') := er_polls cd (snd u) r in ((Ok e, ps), er_src r')
  | (Err x, s') => ((Err x, []), s')
  | (Panic p, s') => ((Panic p, []), s')
  end.
Fixpoint polled_uses (cd : codec) (f : zfile) (h : list (N * list read_call)) (s : source) : list (res stored_entry * list (read_call * rpoll)) * source :=
  match h with
  | [] => ([], s)
  | u :: h => let '(x, s) := polled_use cd f u s in let '(xs, s) := polled_uses cd f h s in (x :: xs, s)
  end.
