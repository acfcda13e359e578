(** One reader over a source with troublesome seeks (Seeks.v), its entry readers built around any decoder (DecoderPolls.v). *)
From Verif Require Import Base ZString ZDate Headers ExtraField Entry IO Locator Reader EntryReader ReaderPolls GiveUp Seeks DecoderPolls.

(** base/read/seek.rs:85-109, base/read/io/entry.rs:40-47: a call to [reader_without_entry] or [reader_with_entry] that puts up with [n] pending polls; the
    reader it returns borrows the source, is polled in some way and dropped, and the source is left where the decoder read up to. *)
Definition dh_use (D : decoder) (f : zfile) (u : N * nat * list read_call) (h : harsh) : (seen stored_entry * list (read_call * rpoll)) * harsh :=
  let '(i, n, l) := u in
  match h_reader_at f i n h with
  | (Finished (Ok (r, e)), _, h') =>
      let '(ps, r') := dr_polls l (dr_new D (er_src r) (er_comp r) (er_limit r)) in ((Finished (Ok e), ps), with_src h' (dr_src r'))
  | (Finished (Err x), _, h') => ((Finished (Err x), []), h')
  | (Finished (Panic p), _, h') => ((Finished (Panic p), []), h')
  | (Left, _, h') => ((Left, []), h')
  end.
Fixpoint dh_uses (D : decoder) (f : zfile) (us : list (N * nat * list read_call)) (h : harsh) : list (seen stored_entry * list (read_call * rpoll)) * harsh :=
  match us with
  | [] => ([], h)
  | u :: us => let '(x, h) := dh_use D f u h in let '(xs, h) := dh_uses D f us h in (x :: xs, h)
  end.
(** open an entry and read it to the end, checked, with buffers of the sizes [ns]; [None] when there were not enough of them *)
Definition dh_read_entry (D : decoder) (ns : list N) (f : zfile) (index : N) (n : nat) (h : harsh) : option (seen bytes) :=
  match h_reader_at f index n h with
  | (Finished (Ok (r, e)), _, _) =>
      match dr_to_end_checked ns (st_entry e) (dr_new D (er_src r) (er_comp r) (er_limit r)) with Some x => Some (Finished x) | None => None end
  | (Finished (Err x), _, _) => Some (Finished (Err x))
  | (Finished (Panic p), _, _) => Some (Finished (Panic p))
  | (Left, _, _) => Some Left
  end.
