(** Property theorems: awaited readers around any decoder, of awaited sessions around any encoder. *)
From Verif Require Import Base BaseFacts SpecFormat SpecCrc SpecArchive SpecRead SpecWrite SpecStream SpecStrict SpecExact SpecThrough SpecOrdinary SpecPolls SpecEncoder SpecReadPolls SpecDecoder SpecWalk SpecLively SpecAwake
  ZString Headers ExtraField Entry IO IOFacts Reader EntryReader StreamReader Writer StreamPolls EncoderPolls ReaderPolls DecoderPolls DecoderWalk AwaitedWrites
  Samples WriteSamples EncoderSamples LivelySamples DecoderSamples AwakeSamples AwakeProofs AwakeRound Properties_Ordinary Properties_Encoder Properties_Lively.
Import Writer SpecReadPolls.

(** * C102. Reading gets done: around any decoder that waits only for the source. *)
(** An entry that can be read at all is read, polled as often as the source can make it wait, and once for each byte. *)
Theorem C102_reads cd (D : decoder) view inv ns f i s data : decoder_ok cd D view inv -> decoder_lively D ->
  Forall (fun n => 0 < n) ns -> nofail (s_sched s) -> read_entry cd f i (cursor (s_data s)) = Ok data ->
  (delays (s_sched s) + length data < length ns)%nat -> d_read_entry D ns f i s = Some (Ok data).
Proof. exact (fun OK LV => entry_reads cd D view inv OK LV ns f i s data). Qed.
Print Assumptions C102_reads.
(** Bytes that can be gone through at all are gone through, by a caller that reads entries out before [done] and polls often enough. *)
Theorem C102_walked cd (D : decoder) view inv cfg l s xs : decoder_ok cd D view inv -> decoder_lively D ->
  len (s_data s) < 0x10000000000000000 -> goes cd (past (s_pos s) (s_data s)) xs -> nofail (s_sched s) ->
  (length xs < length l)%nat -> Forall2 (fun x y => thorough (delays (s_sched s)) (snd x) y) xs (firstn (length xs) l) ->
  exists ys, d_walk D cfg l s = (ys, Some (Ok tt)) /\ Forall2 visited_as xs ys /\ Forall2 (fun y z => sd_left z = Some (sy_done y)) (firstn (length xs) l) ys.
Proof. exact (fun OK LV => walk_done cd D view inv OK LV cfg l s xs). Qed.
Print Assumptions C102_walked.
(** Both ways: what was awaited around any such encoder is there for whoever awaits it around any such decoder. *)
Theorem C102_round cd (E : engine cd) view (D : decoder) dview inv cfg k sched l : codec_ok cd -> engine_ok cd E view -> engine_lively cd E view ->
  decoder_ok cd D dview inv -> decoder_lively D ->
  obliging sched -> Forall (patient k sched) l -> Forall handy l -> Forall ordinary_op l -> Forall proper l -> ordinary l -> filter writes_entry l <> [] ->
  entry_mem_size cfg <= 0x1000000000000 ->
  let '(outs, r, w) := awaited_archive cd E k sched l in
  let d := w_bytes w in
  outs = map (fun o => (o, Some (Ok tt))) l /\ r = Ok tt /\
  (len d < 0x5000000 -> exists f, (forall s, s_data s = d -> nofail (s_sched s) -> fst (file cfg s) = Ok f) /\
     Forall2 (fun o st => exists e, op_entry o = Some e /\ comes_back e st) (filter writes_entry l) (f_entries f) /\
     forall i o data ns s, nth_error (filter writes_entry l) (N.to_nat i) = Some o -> holds cd o data ->
       s_data s = d -> nofail (s_sched s) -> Forall (fun n => 0 < n) ns -> (delays (s_sched s) + length data < length ns)%nat ->
       d_read_entry D ns f i s = Some (Ok data)).
Proof. exact (awaited_read cd E view D dview inv cfg k sched l). Qed.
Print Assumptions C102_round.
Theorem C102_through cd (E : engine cd) view (D : decoder) dview inv cfg k sched l : codec_ok cd -> engine_ok cd E view -> engine_lively cd E view ->
  decoder_ok cd D dview inv -> decoder_lively D ->
  obliging sched -> Forall (patient k sched) l -> Forall handy l -> Forall (fun o => dropped o = false) l -> filter writes_entry l <> [] -> Forall (streamable cd) (filter writes_entry l) ->
  let '(outs, r, w) := awaited_archive cd E k sched l in
  let d := w_bytes w in
  outs = map (fun o => (o, Some (Ok tt))) l /\ r = Ok tt /\
  (len d < 0x10000000000000000 -> exists es, Forall2 (written_as cd) (map (fun o => (false, o)) (filter writes_entry l)) es /\
     forall stays s, s_data s = d -> s_pos s = 0 -> nofail (s_sched s) -> (length es < length stays)%nat ->
       Forall2 (fun x y => thorough (delays (s_sched s)) (snd x) y) es (firstn (length es) stays) ->
       exists ys, d_walk D cfg stays s = (ys, Some (Ok tt)) /\ Forall2 visited_as es ys /\ Forall2 (fun y z => sd_left z = Some (sy_done y)) (firstn (length es) stays) ys).
Proof. exact (awaited_walked cd E view D dview inv cfg k sched l). Qed.
Print Assumptions C102_through.
(** The contract can be met: the decoder of [EntryReader] does, around any codec, and the one that reads byte by byte. *)
Theorem C102_met cd : decoder_lively (peeking cd) /\ decoder_lively biting.
Proof. split; [exact (peeking_lively cd)|exact biting_lively]. Qed.
Print Assumptions C102_met.

Definition errands5 : list wop := errand ++ [OpStream false entry3 [SWriteAll [x09]; SFlush; SWriteAll [x08; x07]] true].
Definition balky (d : bytes) : source :=
  {| s_data := d; s_pos := 0; s_sched := repeat (RChunk 99) 4 ++ [RPending; RChunk 0; RPending; RPending; RChunk 5] ++ repeat (RChunk 99) 6 ++ [RPending; RChunk 0] |}.
Definition thrice (b : bool) : stay := {| sy_polls := if b then repeat (PollRead 5) 21 else [PollRead 1]; sy_done := b; sy_patience := 21 |}.
Definition strolls : list stay := [thrice true; thrice false; thrice true; thrice true; thrice true].
Lemma errands5_part : errands = errands5 ++ [OpStream false entry1 [SWriteAll [x01]] false].
Proof. reflexivity. Qed.
Example C102_case : codec_ok toy /\ engine_ok toy (buffered toy) (fun g => g) /\ engine_lively toy (buffered toy) (fun g => g) /\
  decoder_ok toy biting bite_view bite_inv /\ decoder_lively biting /\
  obliging halting /\ Forall (patient 20 halting) errands5 /\
  Forall handy errands5 /\ Forall ordinary_op errands5 /\ Forall proper errands5 /\ ordinary errands5 /\ filter writes_entry errands5 <> [] /\
  Forall (fun o => dropped o = false) errands5 /\ Forall (streamable toy) (filter writes_entry errands5) /\
  let '(outs, r, w) := awaited_archive toy (buffered toy) 20 halting errands5 in
  let s := balky (w_bytes w) in
  nofail (s_sched s) /\ Forall2 (thorough (delays (s_sched s))) [[x07; x07]; [x01; x02]; []; [x09; x08; x07]] (firstn 4 strolls) /\
  match fst (file cfg0 s) with
  | Ok f => map (fun i => d_read_entry biting (repeat 4 21) f i s) [0; 1; 2; 3] = map (fun b => Some (Ok b)) [[x07; x07]; [x01; x02]; []; [x09; x08; x07]]
  | _ => False
  end /\
  let '(ys, o) := d_walk biting cfg0 strolls s in
  map (fun y => (told (sd_polls y), sd_left y)) ys = [([x07; x07], Some true); ([x01], Some false); ([], Some true); ([x09; x08; x07], Some true)] /\ o = Some (Ok tt).
Proof.
  split; [exact toy_ok|]. destruct (C101_met toy (proj1 toy_ok)) as [M1 M2]. split; [exact M1|]. split; [exact M2|].
  split; [exact biting_ok|]. split; [exact biting_lively|]. split; [repeat constructor; discriminate|].
  split; [repeat (constructor; try exact I; try (cbn; lia))|].
  pose proof errands_handy as H. pose proof errands_quiet as Q. pose proof errands_proper as P. rewrite errands5_part in H, Q, P. apply Forall_app in H, Q, P.
  split; [exact (proj1 H)|]. split; [exact (proj1 Q)|]. split; [exact (proj1 P)|].
  split. { unfold ordinary, free_of. vm_compute. split; [reflexivity|]. split; [discriminate|]. intuition discriminate. }
  split; [discriminate|]. split; [repeat constructor|]. split; [repeat (constructor; [first [exact I | discriminate]|]); constructor|].
  assert (X : let '(outs, r, w) := awaited_archive toy (buffered toy) 20 halting errands5 in
    let s := balky (w_bytes w) in
    match fst (file cfg0 s) with
    | Ok f => map (fun i => d_read_entry biting (repeat 4 21) f i s) [0; 1; 2; 3] = map (fun b => Some (Ok b)) [[x07; x07]; [x01; x02]; []; [x09; x08; x07]]
    | _ => False
    end /\
    let '(ys, o) := d_walk biting cfg0 strolls s in
    map (fun y => (told (sd_polls y), sd_left y)) ys = [([x07; x07], Some true); ([x01], Some false); ([], Some true); ([x09; x08; x07], Some true)] /\ o = Some (Ok tt))
    by (vm_compute; repeat split; reflexivity).
  destruct (awaited_archive toy (buffered toy) 20 halting errands5) as [[outs r] w]. cbv zeta in *. split; [repeat constructor|]. split; [|exact X].
  repeat (constructor; [unfold thorough; cbn; first [lia | split; [repeat constructor|lia]]|]). constructor.
Qed.
