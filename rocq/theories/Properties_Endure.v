(** Property theorems: reading around any decoder, over sources that fail in between. *)
From Verif Require Import Base BaseFacts Crc32 SpecFormat SpecCrc SpecArchive SpecRead SpecWrite SpecEncoder SpecBlame SpecMade SpecExact SpecThrough SpecStream SpecOrdinary ZString Headers ExtraField Entry IO IOFacts
  Reader EntryReader StreamReader Writer StreamPolls EncoderPolls AwaitedWrites
  ReaderPolls SpecReadPolls DecoderPolls SpecDecoder DecoderWalk SpecWalk SpecAwake SpecEndure
  Samples WriteSamples DecoderSamples AwakeSamples EndureProofs MadeRead Properties_Ordinary.
Import Writer SpecReadPolls.

(** * C106. A source that fails in between costs polls, and nothing else. *)
(** Polled on after an error as if it had been a wait, the reader of an entry that can be read at all hands over all of it. *)
Theorem C106_polls cd (D : decoder) view inv l f i s r e s' data : decoder_ok cd D view inv -> decoder_lively D ->
  read_entry cd f i (cursor (s_data s)) = Ok data -> seek_reader_at f i s = (Ok (r, e), s') -> Forall has_room l ->
  (troubles (s_sched s') + length data < length l)%nat ->
  let '(ps, r') := dr_polls l (dr_new D (er_src r) (er_comp r) (er_limit r)) in
  told ps = data /\ Exists at_end ps /\ hasher_finalize (dr_hash r') = crc32_spec data.
Proof. exact (fun OK LV => entry_on cd D view inv OK LV l f i s r e s' data). Qed.
Print Assumptions C106_polls.
(** Reading to the end stops at the first error; it always comes to an answer: the one of a source that is always ready, or its fault. *)
Theorem C106_settles cd (D : decoder) view inv ns f i s : decoder_ok cd D view inv -> decoder_lively D -> Forall (fun n => 0 < n) ns ->
  (forall r e s', seek_reader_at f i s = (Ok (r, e), s') -> (delays (s_sched s') + length (fst (decoded cd (en_compression (st_entry e)) (region (s_data s) e))) < length ns)%nat) ->
  exists x, d_read_entry D ns f i s = Some x /\
    let y := read_entry cd f i (cursor (s_data s)) in
    (x = y \/ (x = Err (UpstreamReadError UnexpectedEof) /\ y = Err (UpstreamReadError InvalidData)) \/ exists k, In (RFail k) (s_sched s) /\ x = Err (UpstreamReadError (IoOther k))).
Proof. exact (fun OK LV => entry_settles cd D view inv OK LV ns f i s). Qed.
Print Assumptions C106_settles.
(** Going through the bytes: every entry is passed, or [next], [done] or [skip] told of a fault, and what was passed before is right. *)
Theorem C106_walked cd (D : decoder) view inv cfg l s xs : decoder_ok cd D view inv -> decoder_lively D ->
  len (s_data s) < 0x10000000000000000 -> goes cd (past (s_pos s) (s_data s)) xs ->
  (length xs < length l)%nat -> Forall2 (fun x y => thorough (troubles (s_sched s)) (snd x) y) xs (firstn (length xs) l) ->
  exists ys r, d_walk D cfg l s = (ys, Some r) /\ Forall2 visited_as (firstn (length ys) xs) ys /\ Forall no_complaint ys /\
    (r = Ok tt /\ length ys = length xs /\ Forall2 (fun y z => sd_left z = Some (sy_done y)) (firstn (length xs) l) ys \/
     exists k, In (RFail k) (s_sched s) /\ r = Err (UpstreamReadError (IoOther k))).
Proof. exact (fun OK LV => walk_or cd D view inv OK LV cfg l s xs). Qed.
Print Assumptions C106_walked.
(** However the archive was made, whatever failed then or fails now: what its session wrote is read, or the source's fault is told. *)
Theorem C106_made cd (D : decoder) view inv cfg xs body z d : codec_ok cd -> decoder_ok cd D view inv -> decoder_lively D ->
  made cd xs body z d -> unambiguous cd cfg (map fst xs) xs z d ->
  exists f, mem_new cfg d = Ok {| m_data := d; m_file := f |} /\
    (forall s, s_data s = d -> fst (file cfg s) = Ok f \/ exists k, In (RFail k) (s_sched s) /\ fst (file cfg s) = Err (UpstreamReadError (IoOther k))) /\
    (forall i no64 o data s, nth_error (succeeded false xs) (N.to_nat i) = Some (no64, o) -> holds cd o data -> (forall it, leaves cd no64 o it -> straight it) -> s_data s = d ->
       (forall ns, Forall (fun n => 0 < n) ns -> (delays (s_sched s) + length data < length ns)%nat ->
          d_read_entry D ns f i s = Some (Ok data) \/ exists k, In (RFail k) (s_sched s) /\ d_read_entry D ns f i s = Some (Err (UpstreamReadError (IoOther k)))) /\
       (forall l r e s', seek_reader_at f i s = (Ok (r, e), s') -> Forall has_room l -> (troubles (s_sched s') + length data < length l)%nat ->
          let '(ps, r') := dr_polls l (dr_new D (er_src r) (er_comp r) (er_limit r)) in
          told ps = data /\ Exists at_end ps /\ hasher_finalize (dr_hash r') = crc32_spec data)).
Proof. exact (fun K OK LV => made_read cd D view inv K OK LV cfg xs body z d). Qed.
Print Assumptions C106_made.
Theorem C106_made_walked cd (D : decoder) view inv cfg xs body z d : codec_ok cd -> decoder_ok cd D view inv -> decoder_lively D ->
  made cd xs body z d -> Forall (fun x => dropped (fst x) = false) xs -> Forall (fun x => worked (snd x) = true) xs ->
  len d < 0x10000000000000000 -> Forall (fun x => streamable cd (snd x)) (succeeded false xs) -> succeeded false xs <> [] ->
  exists es, Forall2 (written_as cd) (succeeded false xs) es /\
    forall l s, s_data s = d -> s_pos s = 0 -> (length es < length l)%nat -> Forall2 (fun x y => thorough (troubles (s_sched s)) (snd x) y) es (firstn (length es) l) ->
    exists ys r, d_walk D cfg l s = (ys, Some r) /\ Forall2 visited_as (firstn (length ys) es) ys /\ Forall no_complaint ys /\
      (r = Ok tt /\ length ys = length es /\ Forall2 (fun y z => sd_left z = Some (sy_done y)) (firstn (length es) l) ys \/
       exists k, In (RFail k) (s_sched s) /\ r = Err (UpstreamReadError (IoOther k))).
Proof. exact (fun K OK LV => made_walked cd D view inv K OK LV cfg xs body z d). Qed.
Print Assumptions C106_made_walked.

Definition twice : list wop := [OpStream false entry3 [SWriteAll [x05; x06]] true; OpStream false entry3 [SWriteAll [x09]] true; OpComment [x68]].
Definition flaky (d : bytes) (l : list revent) : source := {| s_data := d; s_pos := 0; s_sched := l |}.
Definition insists (n : nat) : stay := {| sy_polls := repeat (PollRead 4) n; sy_done := true; sy_patience := 12 |}.
Definition passes : stay := {| sy_polls := []; sy_done := false; sy_patience := 12 |}.
Definition hiccups : list revent := repeat (RChunk 99) 5 ++ [RPending; RChunk 0; RFail 4; RPending; RChunk 99; RFail 5].
(** Two faults while polling cost two polls; a third one, while skipping, is told. *)
Example C106_case : codec_ok toy /\ decoder_ok toy biting bite_view bite_inv /\ decoder_lively biting /\
  exists xs body z d, made toy xs body z d /\ unambiguous toy cfg0 (map fst xs) xs z d /\
    Forall (fun x => dropped (fst x) = false) xs /\ Forall (fun x => worked (snd x) = true) xs /\ Forall (fun x => streamable toy (snd x)) (succeeded false xs) /\ len (succeeded false xs) = 2 /\
    Forall2 (thorough (troubles hiccups)) [[x05; x06]; [x09]] [insists 12; passes] /\
    match fst (file cfg0 (cursor d)) with
    | Ok f =>
      map (fun l => d_read_entry biting (repeat 4 12) f 0 (flaky d l)) [repeat (RChunk 99) 5; repeat (RChunk 99) 5 ++ [RPending; RFail 6]] =
        [Some (Ok [x05; x06]); Some (Err (UpstreamReadError (IoOther 6)))] /\
      match seek_reader_at f 0 (flaky d (repeat (RChunk 99) 4 ++ [RPending; RFail 6; RChunk 0; RFail 7])) with
      | (Ok (r, e), s') =>
        troubles (s_sched s') = 3%nat /\
        map snd (fst (dr_polls (repeat (PollRead 4) 7) (dr_new biting (er_src r) (er_comp r) (er_limit r)))) =
          [RGot [x05]; RPend; RErr (IoOther 6); RErr (IoOther 7); RGot [x06]; RGot []; RGot []]
      | _ => False
      end
    | _ => False
    end /\
    map (fun l => let '(ys, o) := d_walk biting cfg0 [insists 12; passes; passes] (flaky d l) in (map (fun y => (told (sd_polls y), sd_left y)) ys, o))
      [hiccups; hiccups ++ repeat (RChunk 99) 8 ++ [RFail 7]] =
      [([([x05; x06], Some true); ([], Some false)], Some (Ok tt)); ([([x05; x06], Some true); ([], None)], Some (Err (UpstreamReadError (IoOther 7))))].
Proof.
  split; [exact toy_ok|]. split; [exact biting_ok|]. split; [exact biting_lively|].
  assert (H : let '(xs, w) := run_ops toy twice (zw_new []) in
    let '(r, w') := zw_close w in
    let d := w_bytes w' in
    r = Ok tt /\ clear_end xs (w_zip64 w') (last_comment (map fst xs)) d = true /\ xs = map (fun o => (o, Ok tt)) twice /\
    match fst (file cfg0 (cursor d)) with
    | Ok f =>
      map (fun l => d_read_entry biting (repeat 4 12) f 0 (flaky d l)) [repeat (RChunk 99) 5; repeat (RChunk 99) 5 ++ [RPending; RFail 6]] =
        [Some (Ok [x05; x06]); Some (Err (UpstreamReadError (IoOther 6)))] /\
      match seek_reader_at f 0 (flaky d (repeat (RChunk 99) 4 ++ [RPending; RFail 6; RChunk 0; RFail 7])) with
      | (Ok (r, e), s') =>
        troubles (s_sched s') = 3%nat /\
        map snd (fst (dr_polls (repeat (PollRead 4) 7) (dr_new biting (er_src r) (er_comp r) (er_limit r)))) =
          [RGot [x05]; RPend; RErr (IoOther 6); RErr (IoOther 7); RGot [x06]; RGot []; RGot []]
      | _ => False
      end
    | _ => False
    end /\
    map (fun l => let '(ys, o) := d_walk biting cfg0 [insists 12; passes; passes] (flaky d l) in (map (fun y => (told (sd_polls y), sd_left y)) ys, o))
      [hiccups; hiccups ++ repeat (RChunk 99) 8 ++ [RFail 7]] =
      [([([x05; x06], Some true); ([], Some false)], Some (Ok tt)); ([([x05; x06], Some true); ([], None)], Some (Err (UpstreamReadError (IoOther 7))))])
    by (vm_compute; repeat split; reflexivity).
  destruct (run_ops toy twice (zw_new [])) as [xs w] eqn:R. destruct (zw_close w) as [r w'] eqn:C. cbv zeta in H. destruct H as (-> & H2 & -> & H3 & H4).
  eexists _, (w_bytes w), (w_zip64 w'), (w_bytes w').
  split; [refine (by_calls toy [] twice _ w w' _ R C); repeat constructor; cbn; discriminate|].
  split; [exact (clear_end_ok toy _ _ _ _ H2)|]. split; [repeat constructor|]. split; [repeat constructor|].
  split; [repeat (constructor; [first [exact Logic.I | discriminate]|]); constructor|]. split; [reflexivity|].
  split; [repeat (constructor; [unfold thorough; cbn; first [lia | split; [repeat constructor|lia]]|]); constructor|].
  exact (conj H3 H4).
Qed.
