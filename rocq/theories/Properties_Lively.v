(** Property theorems: awaited streams around any encoder. *)
From Verif Require Import Base BaseFacts SpecFormat SpecCrc SpecUtf8 SpecArchive SpecRead SpecWrite SpecPolls SpecEncoder SpecOrdinary SpecLively
  ZString ZDate Headers ExtraField Entry IO IOFacts Reader EntryReader Writer StreamPolls EncoderPolls AwaitedWrites
  Samples WriteSamples EncoderSamples LivelySamples LivelyProofs Properties_Ordinary Properties_Encoder.

(** * C101. What is awaited gets done: around any encoder that does not stop without reason, all is taken, and reads back. *)
Theorem C101_round_trip cd (E : engine cd) view cfg k sched l : codec_ok cd -> engine_ok cd E view -> engine_lively cd E view ->
  obliging sched -> Forall (patient k sched) l -> Forall handy l -> Forall ordinary_op l -> Forall proper l -> ordinary l -> filter writes_entry l <> [] ->
  entry_mem_size cfg <= 0x1000000000000 ->
  let '(outs, r, w) := awaited_archive cd E k sched l in
  let d := w_bytes w in
  outs = map (fun o => (o, Some (Ok tt))) l /\ r = Ok tt /\
  (len d < 0x5000000 -> forall s, s_data s = d -> nofail (s_sched s) ->
   exists f, fst (file cfg s) = Ok f /\ mem_new cfg d = Ok {| m_data := d; m_file := f |} /\ f_zip64 f = w_zip64 w /\
     comment_reads_as (last_comment l) (f_comment f) /\
     Forall2 (fun o st => exists e, op_entry o = Some e /\ comes_back e st) (filter writes_entry l) (f_entries f) /\
     (forall i o data, nth_error (filter writes_entry l) (N.to_nat i) = Some o -> holds cd o data ->
        read_entry cd f i s = Ok data /\ mem_read_entry cd {| m_data := d; m_file := f |} i = Ok data)).
Proof. exact (awaited_round_trip cd E view cfg k sched l). Qed.
Print Assumptions C101_round_trip.
(** The contract can be met, around any codec. *)
Theorem C101_met cd : enc_takes cd -> engine_ok cd (buffered cd) (fun g => g) /\ engine_lively cd (buffered cd) (fun g => g).
Proof. intro T. split; [exact (buffered_ok cd T)|exact (buffered_lively cd T)]. Qed.
Print Assumptions C101_met.

(** [halting] makes the encoder wait; twenty polls for each await are enough *)
Example C101_case : codec_ok toy /\ engine_ok toy (buffered toy) (fun g => g) /\ engine_lively toy (buffered toy) (fun g => g) /\
  obliging halting /\ Forall (patient 20 halting) errands /\
  Forall handy errands /\ Forall ordinary_op errands /\ Forall proper errands /\ ordinary errands /\ filter writes_entry errands <> [] /\
  let '(outs, r, w) := awaited_archive toy (buffered toy) 20 halting errands in len (w_bytes w) = 610 /\ k_sched (w_sink w) = [].
Proof.
  split; [exact toy_ok|]. destruct (C101_met toy (proj1 toy_ok)) as [M1 M2]. split; [exact M1|]. split; [exact M2|]. split; [repeat constructor; discriminate|].
  split; [repeat (constructor; try exact I; try (cbn; lia))|].
  split; [exact errands_handy|]. split; [exact errands_quiet|]. split; [exact errands_proper|]. split; [exact (proj2 errands_few)|].
  split; [discriminate|]. vm_compute. split; reflexivity.
Qed.
(** Polled too seldom, a call is given up. *)
Example C101_case2 : map snd (fst (fst (awaited_archive toy (buffered toy) 1 (repeat (WAccept 99) 6 ++ [WPending; WPending])
    [OpStream false entry3 [SWriteAll [x09; x08; x07]; SFlush] true]))) = [None].
Proof. vm_compute. reflexivity. Qed.
