(** What the ends of a session of carrying tell. *)
From Verif Require Import Base BaseFacts SpecArchive SpecRead SpecWrite SpecBlame Headers Entry IO Reader EntryReader ReaderPolls SpecReadPolls GiveUp Seeks SpecSeeks DecoderPolls SpecDecoder SpecAwake
  Writer StreamPolls EncoderPolls AwaitedWrites SpecLively SpecOrdinary Piped.
Import SpecSeeks.

(** an errand that left an entry *)
Definition gives (x : errand * errand_end) : bool :=
  match x with
  | (Carry _, CarryEnds Carried) => true
  | (Call o, CallEnds (Some (Ok _))) => writes_entry o
  | _ => false
  end.
(** how many entries the errands before this one left *)
Definition place (p : nat) (l : list errand) (xs : list errand_end) : nat := length (filter gives (firstn p (List.combine l xs))).
(** the caller means well: entries as a caller makes them, buffers with room *)
Definition errand_good (x : errand) : Prop :=
  match x with
  | Carry j => entry_fine (ca_entry j) /\ Forall (fun n => 0 < n) (ca_buffers j)
  | Call o => op_good o
  end.
(** what lies in the archive is shorter than 2^64 bytes when decoded *)
Definition measured (cd : codec) (f : zfile) (d : bytes) : Prop :=
  forall i e, opened_from f i d = Ok e -> len (fst (decoded cd (en_compression (st_entry e)) (region d e))) < 0x10000000000000000.

(** Each end is told for its cause; a writer's is left to [ended_by] (C104). *)
Definition told_why (cd : codec) (f : zfile) (h : harsh) (j : carriage) (x : carried) : Prop :=
  let d := s_data (h_src h) in
  let y := read_entry cd f (ca_index j) (cursor d) in
  match x with
  | Carried => exists data, y = Ok data
  | OpeningSaid Left => (ca_patience j < waits h)%nat
  | OpeningSaid (Finished (Err x)) =>
      y = Err x \/ (exists c, reports h c /\ x = UpstreamReadError (IoOther c)) \/ x = UpstreamReadError InvalidInput /\ (roomy h -> forall data, y <> Ok data)
  | OpeningSaid (Finished (Panic p)) => y = Panic p
  | ReaderSaid (Some (Err x)) =>
      y = Err x \/ (exists c, reports h c /\ x = UpstreamReadError (IoOther c)) \/ x = UpstreamReadError UnexpectedEof /\ y = Err (UpstreamReadError InvalidData)
  | ReaderSaid None => exists e, opened_from f (ca_index j) d = Ok e /\
      (length (ca_buffers j) <= delays (s_sched (h_src h)) + length (fst (decoded cd (en_compression (st_entry e)) (region d e))))%nat
  | WriterSaid (Some (Err _)) | WriterSaid (Some (Panic _)) | WriterSaid None => True
  | Corrupt => y = Err CRC32CheckError
  | _ => False
  end.
(** what a carried entry, and one that was not, are to the writer *)
Definition amounts_to (cd : codec) (f : zfile) (d : bytes) (j : carriage) (x : carried) (l : list (wop * option (res unit))) : Prop :=
  match x with
  | Carried => exists data body, read_entry cd f (ca_index j) (cursor d) = Ok data /\ fed_bytes body = data /\ l = [(OpStream false (ca_entry j) body true, Some (Ok tt))]
  | OpeningSaid _ => l = []
  | WriterSaid y => (forall u, y <> Some (Ok u)) /\ exists body closed, l = [(OpStream false (ca_entry j) body closed, y)]
  | _ => exists body, l = [(OpStream false (ca_entry j) body false, Some (Ok tt))]
  end.
Definition errand_told (cd : codec) (f : zfile) (h : harsh) (x : errand) (y : errand_end) : Prop :=
  match x, y with
  | Carry j, CarryEnds c => told_why cd f h j c
  | Call _, CallEnds _ => True
  | _, _ => False
  end.
Definition errand_amounts (cd : codec) (f : zfile) (d : bytes) (x : errand * errand_end) (l : list (wop * option (res unit))) : Prop :=
  match x with
  | (Carry j, CarryEnds c) => amounts_to cd f d j c l
  | (Call o, CallEnds r) => l = [(o, r)] /\ (r = None -> exists e body closed pre, o = OpStream pre e body closed)
  | _ => False
  end.

(** The call that a carriage is to the writer: the chunks are a beginning of the entry's content. *)
Definition in_pieces (cd : codec) (f : zfile) (d : bytes) (j : carriage) (o : wop) : Prop :=
  exists c closed e, o = OpStream false (ca_entry j) (map SWriteAll c) closed /\ opened_from f (ca_index j) d = Ok e /\ prefix (concat c) (fst (decoded cd (en_compression (st_entry e)) (region d e))).
(** entries that the writer takes (C52) *)
Definition errand_handy (x : errand) : Prop :=
  match x with
  | Carry j => entry_fine (ca_entry j) /\ en_compression (ca_entry j) <> Deflate64 /\ SpecOrdinary.roomy (ca_entry j) /\ Forall (fun n => 0 < n) (ca_buffers j)
  | Call o => handy o
  end.
(** Nobody but the sink and the caller is to blame for how a writer ends: it met a fault of the sink, or was polled too few times for what the sink made it wait. *)
Definition writer_blamed (cd : codec) (k : nat) (sched : list wevent) (f : zfile) (d : bytes) (x : errand) (y : errand_end) : Prop :=
  match x, y with
  | Carry j, CarryEnds (WriterSaid (Some (Err e))) => (exists io, e = UpstreamReadError io) /\ ~ obliging sched
  | Carry j, CarryEnds (WriterSaid None) => exists e, opened_from f (ca_index j) d = Ok e /\
      (k <= SpecLively.waits sched + length (fst (decoded cd (en_compression (st_entry e)) (region d e))))%nat
  | Carry j, CarryEnds (WriterSaid _) => False
  | Carry _, CarryEnds _ => True
  | Call o, CallEnds r => ended_by k sched o r
  | _, _ => False
  end.
(** Nothing is in the way of an errand: the entry can be read, and the caller has patience for what source and sink make it wait. *)
Definition unhindered (cd : codec) (k : nat) (sched : list wevent) (f : zfile) (h : harsh) (x : errand) : Prop :=
  match x with
  | Carry j => (exists data, read_entry cd f (ca_index j) (cursor (s_data (h_src h))) = Ok data /\
      (delays (s_sched (h_src h)) + length data < length (ca_buffers j))%nat /\ (SpecLively.waits sched + length data < k)%nat) /\ (waits h <= ca_patience j)%nat
  | Call o => SpecLively.patient k sched o
  end.
Definition well_ended (x : errand) : errand_end := match x with Carry _ => CarryEnds Carried | Call _ => CallEnds (Some (Ok tt)) end.
