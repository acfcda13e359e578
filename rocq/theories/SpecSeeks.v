(** What a source with troublesome seeks may do to a call. *)
From Verif Require Import Base BaseFacts SpecArchive SpecRead Entry IO Reader EntryReader ReaderPolls SpecReadPolls GiveUp Seeks.

(** the source reports the error [c] somewhere in a read or a seek *)
Definition reports (h : harsh) (c : N) : Prop := In (RFail c) (s_sched (h_src h)) \/ exists p, In (KFail c p) (h_seeks h).
(** how often it says that it is not ready *)
Definition read_waits (l : list revent) : nat := length (filter (fun e => match e with RPending => true | _ => false end) l).
Definition seek_waits (l : list kevent) : nat := length (filter (fun e => match e with KPending _ => true | _ => false end) l).
Definition waits (h : harsh) : nat := read_waits (s_sched (h_src h)) + seek_waits (h_seeks h).
(** it takes every position in its data and behind it as far as the two lengths of a header lead *)
Definition roomy (h : harsh) : Prop := len (s_data (h_src h)) + 131070 <= h_max h /\ len (s_data (h_src h)) + 131070 <= u64_max.
(** how opening the entry [i] of the archive [d] ends when nothing is in the way *)
Definition opened_from (f : zfile) (i : N) (d : bytes) : res stored_entry :=
  match fst (seek_reader_at f i (cursor d)) with Ok (_, e) => Ok e | Err x => Err x | Panic p => Panic p end.
(** how one use of the reader ends: an entry that is opened hands over a beginning of its content, and all of it once a poll says so *)
Definition use_outcome (cd : codec) (f : zfile) (h : harsh) (u : N * nat * list read_call) (x : seen stored_entry * list (read_call * rpoll)) : Prop :=
  let '(i, n, _) := u in
  let '(r, ps) := x in
  match r with
  | Finished (Ok e) => opened_from f i (s_data (h_src h)) = Ok e /\
      let whole := decoded cd (en_compression (st_entry e)) (region (s_data (h_src h)) e) in
      prefix (told ps) (fst whole) /\ (Exists at_end ps -> whole = (told ps, true))
  | Finished r => ps = [] /\
      (r = opened_from f i (s_data (h_src h)) \/
       (exists c, reports h c /\ r = Err (UpstreamReadError (IoOther c))) \/
       r = Err (UpstreamReadError InvalidInput) /\ (roomy h -> forall e, opened_from f i (s_data (h_src h)) <> Ok e))
  | Left => ps = [] /\ (n < waits h)%nat
  end.
