(** base/read/stream.rs around a decoder that goes about it in its own way. ([StreamReader] has the one of [EntryReader].) *)
From Verif Require Import Base Headers Entry IO Reader EntryReader ReaderPolls StreamReader DecoderPolls.

(** [reader.read(buf).await], given up after so many polls *)
Fixpoint dr_read {D} (k : nat) (n : N) (r : dreader D) : rpoll * dreader D :=
  match k with
  | O => (RPend, r)
  | S k => match dr_poll_read n r with (RPend, r') => dr_read k n r' | x => x end
  end.
(** stream.rs 156-160, 168-172 *)
Definition dr_finish (descriptor : bool) (s : source) : res source :=
  if descriptor then
    match consume_data_descriptor s with (Ok _, s) => Ok s | (Err e, _) => Err e | (Panic p, _) => Panic p end
  else Ok s.
(** stream.rs 148-161 [done]; [None]: given up *)
Definition dr_done {D} (k : nat) (descriptor : bool) (r : dreader D) : option (res source) :=
  match dr_read k 1 r with
  | (RPend, _) => None
  | (RErr e, _) => Some (Err (UpstreamReadError e))
  | (RGot b, r') => Some (if negb (len b =? 0) then Err EOFNotReached else dr_finish descriptor (dr_src r'))
  end.
(** stream.rs 164-174 [skip] *)
Definition dr_skip {D} (k : nat) (descriptor : bool) (r : dreader D) : option (res source) :=
  match dr_to_end (repeat 2048 k) r with
  | (Some (Ok _), r') => Some (dr_finish descriptor (dr_src r'))
  | (Some (Err e), _) => Some (Err e)
  | (Some (Panic p), _) => Some (Panic p)
  | (None, _) => None
  end.

(** What a caller does with an entry: it polls its reader through [reader_mut] as it likes, then calls [done] or [skip] and
    polls that up to so often. *)
Record stay := { sy_polls : list read_call; sy_done : bool; sy_patience : nat }.
(** What came of it: the entry, what the polls said, and whether it was left, and by [done]. *)
Record stayed := { sd_entry : zentry; sd_polls : list (read_call * rpoll); sd_left : option bool }.
(** entry by entry; [None]: given up, or nothing more to be done *)
Fixpoint d_walk (D : decoder) (cfg : config) (l : list stay) (s : source) : list stayed * option (res unit) :=
  match l with
  | [] => ([], None)
  | y :: l =>
    match stream_next cfg s with
    | (Ok None, _) => ([], Some (Ok tt))
    | (Err e, _) => ([], Some (Err e))
    | (Panic p, _) => ([], Some (Panic p))
    | (Ok (Some rd), _) =>
      let r := rd_reader rd in
      let '(ps, r') := dr_polls (sy_polls y) (dr_new D (er_src r) (er_comp r) (er_limit r)) in
      let x left := {| sd_entry := rd_entry rd; sd_polls := ps; sd_left := left |} in
      match (if sy_done y then dr_done else dr_skip) (sy_patience y) (rd_descriptor rd) r' with
      | None => ([x None], None)
      | Some (Err e) => ([x None], Some (Err e))
      | Some (Panic p) => ([x None], Some (Panic p))
      | Some (Ok s') => let '(xs, o) := d_walk D cfg l s' in (x (Some (sy_done y)) :: xs, o)
      end
    end
  end.
