(** Property theorems: entries read through decoders that go about it in their own way. *)
From Verif Require Import Base BaseFacts SpecFormat SpecCrc SpecArchive SpecRead SpecReadPolls SpecWrite SpecSize SpecStrict SpecAccept SpecLax SpecRepack SpecInterop SpecPolls SpecEncoder SpecDecoder
  Crc32 ZString ZDate Headers ExtraField Entry IO IOFacts Reader EntryReader ReaderPolls DecoderPolls Writer StreamPolls EncoderPolls Samples WriteSamples EndProofs InteropProofs ChainFacts
  EncoderProofs EncoderSamples DecoderProofs DecoderSamples Properties_Encoder.
Import SpecReadPolls.

(** * C98. However the decoder goes about it, polling a reader hands over the entry. *)
(** Whatever the polls say, short of that the data is malformed, they handed over a beginning of the entry; all of it once one
    says that there is no more; and the checksum is that of what was handed over. What is found malformed does not decode. *)
Theorem C98_polls cd D view inv f i l s r e s' : decoder_ok cd D view inv -> seek_reader_at f i s = (Ok (r, e), s') ->
  let '(ps, r') := dr_polls l (dr_new D (er_src r) (er_comp r) (er_limit r)) in
  let whole := decoded cd (en_compression (st_entry e)) (region (s_data s) e) in
  s_data (dr_src r') = s_data s /\
  (Exists found_bad ps -> snd whole = false) /\
  (~ Exists found_bad ps -> prefix (told ps) (fst whole) /\ (Exists at_end ps -> whole = (told ps, true)) /\
     hasher_finalize (dr_hash r') = crc32_spec (told ps)).
Proof. intro OK. exact (decoder_polled cd D view inv OK f i l s r e s'). Qed.
Print Assumptions C98_polls.
(** Reading to the end with buffers of any sizes, over any schedule, ends as it does on a fresh source, with the name of the
    error apart, unless the source failed. *)
Theorem C98_reads cd D view inv ns f i s : decoder_ok cd D view inv -> Forall (fun n => 0 < n) ns ->
  match d_read_entry D ns f i s with
  | None => True
  | Some x => let y := read_entry cd f i (cursor (s_data s)) in
      x = y \/ (x = Err (UpstreamReadError UnexpectedEof) /\ y = Err (UpstreamReadError InvalidData)) \/
      exists k, In (RFail k) (s_sched s) /\ x = Err (UpstreamReadError (IoOther k))
  end.
Proof. intro OK. exact (decoder_reads cd D view inv OK ns f i s). Qed.
Print Assumptions C98_reads.
(** What was written through any encoder (C97) is read back through any decoder. *)
Theorem C98_round cd (E : engine cd) eview D dview inv cfg sched l : codec_ok cd -> engine_ok cd E eview -> decoder_ok cd D dview inv ->
  let '(outs, r, w) := visited_archive cd E sched l in
  let xs := map counts_as outs in
  let d := w_bytes w in
  Forall (fun x => op_good (fst x)) xs -> Forall not_ignored outs ->
  r = Ok tt -> unambiguous cd cfg (map fst xs) xs (w_zip64 w) d ->
  exists f, mem_new cfg d = Ok {| m_data := d; m_file := f |} /\
    forall i no64 o data ns s, nth_error (succeeded false xs) (N.to_nat i) = Some (no64, o) -> holds cd o data ->
      (forall it, leaves cd no64 o it -> straight it) -> Forall (fun n => 0 < n) ns -> s_data s = d ->
      match d_read_entry D ns f i s with
      | None => True
      | Some x => x = Ok data \/ exists k, In (RFail k) (s_sched s) /\ x = Err (UpstreamReadError (IoOther k))
      end.
Proof. exact (both_ways cd E eview D dview inv cfg sched l). Qed.
Print Assumptions C98_round.
(** The contract can be met: the decoder of [EntryReader] does, and one that reads byte by byte does. *)
Theorem C98_decoder cd : dec_within cd -> decoder_ok cd (peeking cd) peek_view (peek_inv cd).
Proof. exact (peeking_ok cd). Qed.
Print Assumptions C98_decoder.
(** The former is [EntryReader]: its polls say the same. *)
Theorem C98_model cd l s c n : dec_within cd ->
  fst (dr_polls l (dr_new (peeking cd) s c n)) = fst (er_polls cd l (er_new s c n)) /\
  dr_src (snd (dr_polls l (dr_new (peeking cd) s c n))) = er_src (snd (er_polls cd l (er_new s c n))).
Proof. exact (peeking_same cd l s c n). Qed.
Print Assumptions C98_model.
Theorem C98_bytewise : decoder_ok toy biting bite_view bite_inv.
Proof. exact biting_ok. Qed.
Print Assumptions C98_bytewise.

Definition restless (d : bytes) : source :=
  {| s_data := d; s_pos := 0; s_sched := repeat (RChunk 99) 3 ++ [RPending; RChunk 0; RPending; RChunk 5; RChunk 5; RFail 3; RPending; RChunk 1] |}.
(** the same through both; byte by byte it takes other polls *)
Example C98_case : decoder_ok toy biting bite_view bite_inv /\ dec_within toy /\
  match fst (file cfg0 (cursor sample)) with
  | Ok f =>
    match seek_reader_at f 1 (restless sample) with
    | (Ok (r, e), _) =>
      map snd (fst (dr_polls [PollRead 9; PollRead 1; PollReadVectored [0; 4]; PollRead 5; PollRead 0; PollRead 3; PollRead 3; PollRead 3] (dr_new biting (er_src r) (er_comp r) (er_limit r)))) =
        [RPend; RGot [x78]; RPend; RGot [x79]; RGot []; RErr (IoOther 3); RPend; RGot []]
    | _ => False
    end /\
    d_read_entry biting [7; 1; 9] f 1 (cursor sample) = Some (Ok [x78; x79]) /\
    d_read_entry biting [7; 1] f 1 (cursor sample) = None /\
    d_read_entry biting [7; 1; 9; 9; 9] f 1 (restless sample) = Some (Err (UpstreamReadError (IoOther 3))) /\
    d_read_entry (peeking toy) [7; 1; 9] f 1 (cursor sample) = Some (Ok [x78; x79]) /\
    d_read_entry biting [7; 1; 9] f 0 (cursor sample) = Some (Ok data1)
  | _ => False
  end.
Proof. split; [exact biting_ok|]. split; [exact toy_within|]. vm_compute. repeat split; reflexivity. Qed.
(** the archive of [C97_case] *)
Example C98_round_case : let '(outs, r, w) := visited_archive toy (buffered toy) halting polled1 in
  opened (w_bytes w) (fun f => d_read_entry biting [2; 2; 2; 2; 2; 2] f 0 {| s_data := w_bytes w; s_pos := 0; s_sched := repeat (RChunk 99) 3 ++ [RChunk 0; RChunk 3] |}) =
    Some (Some (Ok [x01; x02; x03; x06; x07])).
Proof. vm_compute. reflexivity. Qed.
