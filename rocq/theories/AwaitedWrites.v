(** Callers that await: [write_all], [flush] and [close] of a stream around any encoder, each polled up to so often. *)
From Verif Require Import Base Crc32 Headers Entry IO EntryReader Writer StreamPolls EncoderPolls.

(** futures-lite [write_all] over entry_stream.rs 289-297; [None]: given up while pending *)
Fixpoint await_write {cd} (E : engine cd) (k : nat) (b : bytes) (sw : stream_writer cd) (g : eg_state E) (w : world) :
  option (res (stream_writer cd * eg_state E)) * world :=
  match b with
  | [] => (Some (Ok (sw, g)), w)
  | _ =>
    match k with
    | O => (None, w)
    | S k =>
      match coded_poll E (PollWrite b) sw g w with
      | (WPend, sw', g', w') => await_write E k b sw' g' w'
      | (WDone n, sw', g', w') => if n =? 0 then (Some (Err (UpstreamReadError WriteZero)), w') else await_write E k (drop n b) sw' g' w'
      | (WErr e, _, _, w') => (Some (Err (UpstreamReadError e)), w')
      end
    end
  end.
(** [flush] over 299-301 *)
Fixpoint await_flush {cd} (E : engine cd) (k : nat) (sw : stream_writer cd) (g : eg_state E) (w : world) :
  option (res (stream_writer cd * eg_state E)) * world :=
  match k with
  | O => (None, w)
  | S k =>
    match coded_poll E PollFlush sw g w with
    | (WPend, sw', g', w') => await_flush E k sw' g' w'
    | (WDone _, sw', g', w') => (Some (Ok (sw', g')), w')
    | (WErr e, _, _, w') => (Some (Err (UpstreamReadError e)), w')
    end
  end.
Fixpoint await_body {cd} (E : engine cd) (k : nat) (l : list stream_op) (sw : stream_writer cd) (g : eg_state E) (w : world) :
  option (res (stream_writer cd * eg_state E)) * world :=
  match l with
  | [] => (Some (Ok (sw, g)), w)
  | o :: l =>
    match match o with SWriteAll b => await_write E k b sw g w | SFlush => await_flush E k sw g w end with
    | (Some (Ok (sw', g')), w') => await_body E k l sw' g' w'
    | x => x
    end
  end.

(** a call, its stream around the encoder if it is to be compressed *)
Definition awaited_op (cd : codec) (E : engine cd) (k : nat) (o : wop) (w : world) : option (res unit) * world :=
  let others := let '(r, w') := run_op cd o w in (Some r, w') in
  match o with
  | OpStream pre e body closed =>
    match stream_open cd pre e w with
    | (Ok sw, w1) =>
      match sw_enc sw with
      | Some st =>
        match await_body E k body sw (eg_new E st) w1 with
        | (Some (Ok (sw', g)), w2) => if closed then coded_close E k sw' g w2 else (Some (Ok tt), w2)
        | (Some (Err x), w2) => (Some (Err x), w2)
        | (Some (Panic p), w2) => (Some (Panic p), w2)
        | (None, w2) => (None, w2)
        end
      | None => others
      end
    | _ => others
    end
  | _ => others
  end.
Fixpoint awaited_ops (cd : codec) (E : engine cd) (k : nat) (l : list wop) (w : world) : list (wop * option (res unit)) * world :=
  match l with
  | [] => ([], w)
  | o :: l =>
    let '(x, w') := awaited_op cd E k o w in
    let '(xs, w'') := awaited_ops cd E k l w' in
    ((o, x) :: xs, w'')
  end.
Definition awaited_archive (cd : codec) (E : engine cd) (k : nat) (sched : list wevent) (l : list wop) : list (wop * option (res unit)) * res unit * world :=
  let '(outs, w) := awaited_ops cd E k l (zw_new sched) in
  let '(r, w') := zw_close w in (outs, r, w').
