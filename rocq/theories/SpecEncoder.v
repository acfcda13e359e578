(** What is asked of an encoder that is polled, and what polled streams amount to. *)
From Verif Require Import Base Headers Entry IO EntryReader Writer StreamPolls SpecPolls SpecWrite EncoderPolls.

(** only the sink was polled, and it took these bytes *)
Definition passed_on (w w' : world) (b : bytes) : Prop :=
  (exists u, k_sched (w_sink w) = u ++ k_sched (w_sink w')) /\
  k_written (w_sink w') = k_written (w_sink w) ++ b /\ k_closes (w_sink w') = k_closes (w_sink w) /\ k_flushes (w_sink w) <= k_flushes (w_sink w') /\
  w_offset w' = w_offset w + len b /\ w_cds w' = w_cds w /\ w_force_no w' = w_force_no w /\ w_zip64 w' = w_zip64 w /\ w_comment w' = w_comment w.

(** An encoder takes in what it reports and nothing else, hands its output to the sink in order, keeps what the sink did not
    take, and is closed once everything was handed over. Only if a poll fails, it need not say what it took in.
    [view] tells what it is doing: the state of the compression, the output kept, and whether it was told to finish. *)
Definition engine_ok (cd : codec) (E : engine cd) (view : eg_state E -> est cd * bytes * bool) : Prop :=
  (forall st, view (eg_new E st) = (st, [], false)) /\
  forall c g w, let '(p, g', w') := eg_poll E c g w in
    let '(st, kept, finished) := view g in
    let '(st', kept', finished') := view g' in
    exists fed out last sent, enc_runs cd st fed out st' /\ kept ++ out ++ last = sent ++ kept' /\ passed_on w w' sent /\
      (finished' = finished /\ last = [] \/ finished = false /\ finished' = true /\ last = enc_finish cd st') /\
      (finished = true -> fed = [] /\ out = [] /\ st' = st) /\
      match p with
      | WErr _ => True
      | WPend => fed = []
      | WDone n => match c with
                   | EWrite b => n <= len b /\ fed = take n b
                   | EFlush => fed = []
                   | EClose => fed = [] /\ finished' = true /\ kept' = []
                   end
      end.

(** the call that a visit amounts to, and how it ended *)
Definition counts_as (x : visit * visit_out) : wop * res unit :=
  match x with
  | (Calls o, (Some r, _)) => (o, r)
  | (Calls o, (None, _)) => (o, Ok tt)
  | (Polls pre e _ _, (Some r, xs)) => (OpStream pre e [SWriteAll (taken xs)] true, r)
  | (Polls pre e _ _, (None, xs)) => (OpStream pre e [SWriteAll (taken xs)] false, Ok tt)
  end.
Definition poll_failed (x : poll_call * wpoll) : Prop := match snd x with WErr _ => True | _ => False end.
(** no poll of a stream that is compressed failed, or the stream was given up *)
Definition not_ignored (x : visit * visit_out) : Prop :=
  match x with
  | (Polls pre e _ _, (Some _, xs)) => pre = true \/ en_compression e = Stored \/ Forall (fun y => ~ poll_failed y) xs
  | _ => True
  end.
