(** base/write/entry_stream.rs 288-306: any stream writer as an [AsyncWrite], polled by the caller in any order. What is
    compressed by the writer goes through an encoder of async-compression, which keeps output that the sink did not take yet. *)
From Verif Require Import Base Crc32 Headers Entry IO EntryReader Writer StreamPolls.

(** the encoder between the two offset writers, as [AsyncWrite]; it polls the sink through the inner one *)
Inductive encoder_call := EWrite (b : bytes) | EFlush | EClose.
Record engine (cd : codec) := {
  eg_state : Type;
  eg_new : est cd -> eg_state;
  eg_poll : encoder_call -> eg_state -> world -> wpoll * eg_state * world }.
Arguments eg_state {cd}. Arguments eg_new {cd}. Arguments eg_poll {cd}.

(** entry_stream.rs 289-297, io/offset.rs 47-56 (the outer one), compressed_writer.rs 72-86 *)
Definition coded_poll_write {cd} (E : engine cd) (b : bytes) (sw : stream_writer cd) (g : eg_state E) (w : world) : wpoll * stream_writer cd * eg_state E * world :=
  match eg_poll E (EWrite b) g w with
  | (WDone n, g', w') => (WDone n, sw_advance sw (hasher_update (sw_hasher sw) (take n b)) (sw_uoffset sw + n) (sw_enc sw), g', w')
  | (p, g', w') => (p, sw, g', w')
  end.
(** 299-305, compressed_writer.rs 88-118 *)
Definition coded_poll {cd} (E : engine cd) (c : poll_call) (sw : stream_writer cd) (g : eg_state E) (w : world) : wpoll * stream_writer cd * eg_state E * world :=
  match c with
  | PollWrite b => coded_poll_write E b sw g w
  | PollWriteVectored bs => coded_poll_write E (first_buffer bs) sw g w
  | PollFlush => let '(p, g', w') := eg_poll E EFlush g w in (p, sw, g', w')
  | PollClose => let '(p, g', w') := eg_poll E EClose g w in (p, sw, g', w')
  end.
Fixpoint coded_polls {cd} (E : engine cd) (l : list poll_call) (sw : stream_writer cd) (g : eg_state E) (w : world) :
  list (poll_call * wpoll) * stream_writer cd * eg_state E * world :=
  match l with
  | [] => ([], sw, g, w)
  | c :: r =>
    let '(p, sw1, g1, w1) := coded_poll E c sw g w in
    let '(xs, sw2, g2, w2) := coded_polls E r sw1 g1 w1 in
    ((c, p) :: xs, sw2, g2, w2)
  end.

(** entry_stream.rs 202, [self.writer.close().await]: polled at most [k] times; [None] if it is given up while pending *)
Fixpoint await_close {cd} (E : engine cd) (k : nat) (g : eg_state E) (w : world) : option (res unit) * world :=
  match k with
  | O => (None, w)
  | S k =>
    match eg_poll E EClose g w with
    | (WPend, g', w') => await_close E k g' w'
    | (WDone _, _, w') => (Some (Ok tt), w')
    | (WErr e, _, w') => (Some (Err (UpstreamReadError e)), w')
    end
  end.
(** what is left of [close] once the encoder is through is what a writer without one does (entry_stream.rs 204-284) *)
Definition unencoded {cd} (sw : stream_writer cd) : stream_writer cd := sw_advance sw (sw_hasher sw) (sw_uoffset sw) None.
Definition coded_close {cd} (E : engine cd) (k : nat) (sw : stream_writer cd) (g : eg_state E) (w : world) : option (res unit) * world :=
  match await_close E k g w with
  | (Some (Ok _), w') => let '(r, w'') := stream_close (unencoded sw) w' in (Some r, w'')
  | x => x
  end.

(** a session in which any stream may be polled. [k] tells how often [close()] is polled at most before the encoder is
    through; 0 if the stream writer is dropped instead. *)
Inductive visit := Calls (o : wop) | Polls (pre : bool) (e : zentry) (l : list poll_call) (k : nat).
(** what a visit told: how it ended ([None]: the stream writer was dropped) and what each poll said *)
Definition visit_out : Type := option (res unit) * list (poll_call * wpoll).
Definition run_visit (cd : codec) (E : engine cd) (v : visit) (w : world) : visit_out * world :=
  match v with
  | Calls o => let '(r, w') := run_op cd o w in (Some r, [], w')
  | Polls pre e l k =>
    match stream_open cd pre e w with
    | (Ok sw, w1) =>
      match sw_enc sw with
      | Some st =>
        let '(xs, sw', g, w2) := coded_polls E l sw (eg_new E st) w1 in
        let '(r, w3) := coded_close E k sw' g w2 in ((r, xs), w3)
      | None =>
        let '(xs, sw', w2) := raw_polls l sw w1 in
        match k with
        | O => ((None, xs), w2)
        | S _ => let '(r, w3) := stream_close sw' w2 in ((Some r, xs), w3)
        end
      end
    | (Err x, w1) => ((Some (Err x), []), w1)
    | (Panic p, w1) => ((Some (Panic p), []), w1)
    end
  end.
Fixpoint run_visits (cd : codec) (E : engine cd) (l : list visit) (w : world) : list (visit * visit_out) * world :=
  match l with
  | [] => ([], w)
  | v :: l =>
    let '(x, w') := run_visit cd E v w in
    let '(outs, w'') := run_visits cd E l w' in
    ((v, x) :: outs, w'')
  end.
Definition visited_archive (cd : codec) (E : engine cd) (sched : list wevent) (l : list visit) : list (visit * visit_out) * res unit * world :=
  let '(outs, w) := run_visits cd E l (zw_new sched) in
  let '(r, w') := zw_close w in (outs, r, w').
