(** Property theorems: what becomes of every call of a session. *)
From Verif Require Import Base BaseFacts SpecFormat SpecCrc SpecArchive SpecRead SpecWrite ZString ZDate Headers ExtraField Entry IO IOFacts Reader
  EntryReader Writer Samples WriteSamples SpecSize SpecImage SpecSession SessionProofs.

(** * C77. A session can be worked out beforehand, with the calls that fail. *)
(** On a sink without faults the outcome of every call, what a failing call leaves behind, the outcome of [close] and the bytes on the sink are those of
    [session_ends]; of the run only the compressed data is not told by the calls, and for each call it is the same in any session. *)
Theorem C77_session cd : enc_takes cd -> exists data, (forall o, stores cd o (data o)) /\
  forall sched l, obliging sched -> Forall op_good l ->
  let '(xs, r, w) := run_archive cd sched l in len (w_bytes w) < 0x10000000000000000 -> session_ends data l = (xs, r, w_bytes w).
Proof. exact (whole_story cd). Qed.
Print Assumptions C77_session.
(** With data that goes in as it is there is nothing left to know. *)
Theorem C77_plain cd sched l : enc_takes cd -> obliging sched -> Forall op_good l -> Forall uncoded l ->
  let '(xs, r, w) := run_archive cd sched l in
  len (w_bytes w) < 0x10000000000000000 -> session_ends told_by l = (xs, r, w_bytes w).
Proof. exact (plain_session cd sched l). Qed.
Print Assumptions C77_plain.
(** On any sink it is so up to the first call that reports an error of the sink, and that call leaves a part of what it was to leave. *)
Theorem C77_faults cd : enc_takes cd -> exists data, (forall o, stores cd o (data o)) /\
  (forall sched l o, Forall op_good l -> op_good o ->
   let '(xs, w1) := run_ops cd l (zw_new sched) in
   let '(r, w2) := run_op cd o w1 in
   let '(rs, s) := calls_end data fresh l in
   let '(r', s') := call_ends data s o in
   Forall (fun x => says_no_upstream (snd x)) xs -> len (w_bytes w1) < 0x10000000000000000 -> len (data o) < 0x10000000000000000 ->
   xs = rs /\ w_bytes w1 = s_bytes s /\
   (r = r' /\ w_bytes w2 = s_bytes s' \/ (exists io, r = Err (UpstreamReadError io)) /\ prefix_of (s_bytes s) (w_bytes w2) /\ prefix_of (w_bytes w2) (s_bytes s'))) /\
  (forall sched l, Forall op_good l ->
   let '(xs, r, w) := run_archive cd sched l in
   let '(rs, r', b) := session_ends data l in
   Forall (fun x => says_no_upstream (snd x)) xs -> len (w_bytes w) < 0x10000000000000000 ->
   xs = rs /\ (r = r' /\ w_bytes w = b \/ (exists io, r = Err (UpstreamReadError io)) /\ prefix_of (w_bytes w) b)).
Proof. exact (faulty_story cd). Qed.
Print Assumptions C77_faults.

(** a stream that is dropped, an entry without an encoder, whole and as a stream, then with ZIP64 forbidden an entry that needs it, and ones that work *)
Definition vast : zentry := set_uncompressed_size entry1 0x200000000.
Definition exotic : zentry := mk_entry (utf8 [x78]) (utf8 []) Deflate64 [].
Definition mixed : list wop :=
  [OpStream false entry1 [SWriteAll [x01; x02]; SFlush] false; OpWhole exotic [x09]; OpStream false exotic [SWriteAll [x09]] true; OpWholePre vast [x05];
   OpForceNoZip64; OpWholePre vast [x05]; OpStream true vast [SWriteAll [x05]] true; OpStream true exotic [SWriteAll [x05]; SWriteAll [x06; x07]] true;
   OpComment [x68; x65; x79]; OpWhole entry1 [x68; x69]].
Lemma mixed_good : Forall op_good mixed.
Proof. repeat constructor; cbn; discriminate. Qed.
Example C77_case : enc_takes toy /\ obliging bumpy /\ Forall op_good mixed /\ Forall uncoded mixed /\
  (let '(xs, r, w) := run_archive toy bumpy mixed in
   map snd xs = [Ok tt; Panic PUnsupported; Panic PUnsupported; Ok tt; Ok tt; Err (Zip64Needed LargeFile); Err (Zip64Needed LargeFile); Ok tt; Ok tt; Ok tt] /\
   r = Ok tt /\ len (w_bytes w) = 533 /\ session_ends told_by mixed = (xs, r, w_bytes w)).
Proof.
  split; [exact toy_takes|]. split; [repeat constructor; discriminate|]. split; [exact mixed_good|]. split; [repeat (constructor; [first [exact I | left; reflexivity | right; reflexivity]|]); constructor|].
  vm_compute. repeat split; reflexivity.
Qed.
(** with compressed data, on a sink that fails in the second call, and on one that fails in [close] *)
Definition short_lived (n : nat) : list wevent := repeat (WAccept 90) n ++ [WFail 5].
Example C77_faults_case : Forall op_good history /\
  (let '(xs, w1) := run_ops toy (firstn 1 history) (zw_new (short_lived 9)) in
   forallb (fun x => worked (snd x)) xs = true /\ fst (run_op toy (nth 1 history OpForceZip64) w1) = Err (UpstreamReadError (IoOther 5))) /\
  (let '(xs, r, w) := run_archive toy (short_lived 30) history in forallb (fun x => worked (snd x)) xs = true /\ r = Err (UpstreamReadError (IoOther 5))).
Proof. split; [repeat constructor; cbn; discriminate|]. vm_compute. repeat split; reflexivity. Qed.
(** A stream that was only opened leaves its header, no record, and a ZIP64 archive. *)
Example C77_mark : session_ends told_by [OpStream false entry1 [] false] =
  ([(OpStream false entry1 [] false, Ok tt)], Ok tt,
   local_bytes (item_for fresh (OpStream false entry1 [] false) []) ++ archive_end true 0 0 57 []).
Proof. vm_compute. reflexivity. Qed.
