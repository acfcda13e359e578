(** Property theorems: from sessions of polls to walks by polls. *)
From Verif Require Import Base BaseFacts SpecFormat SpecCrc SpecArchive SpecRead SpecWrite SpecStream SpecStrict SpecExact SpecThrough SpecPolls SpecEncoder SpecReadPolls SpecDecoder SpecWalk
  ZString ZDate Headers ExtraField Entry IO IOFacts Reader EntryReader StreamReader Writer StreamPolls EncoderPolls ReaderPolls DecoderPolls DecoderWalk
  Samples WriteSamples EncoderSamples DecoderSamples DecoderWalkProofs WayProofs Properties_Encoder Properties_Walk.
Import Writer SpecReadPolls.

(** * C100. What polls have written through any encoder, polls walk through, front to back, around any decoder. *)
Theorem C100_stands cd (E : engine cd) view sched l : codec_ok cd -> engine_ok cd E view ->
  let '(outs, r, w) := visited_archive cd E sched l in
  let xs := map counts_as outs in
  let d := w_bytes w in
  Forall (fun x => op_good (fst x)) xs -> Forall not_ignored outs -> Forall (fun x => dropped (fst x) = false) xs ->
  r = Ok tt -> Forall (fun x => worked (snd x) = true) xs -> len d < 0x10000000000000000 ->
  Forall (fun x => streamable cd (snd x)) (succeeded false xs) -> succeeded false xs <> [] ->
  exists es, goes cd d es /\ Forall2 (written_as cd) (succeeded false xs) es.
Proof. exact (visited_goes cd E view sched l). Qed.
Print Assumptions C100_stands.
(** [d_walk] polls as it likes, and leaves the entries by [done] or [skip]; the source may wait and fail as it likes. *)
Theorem C100_walked cd (E : engine cd) view (D : decoder) dview inv cfg sched l : codec_ok cd -> engine_ok cd E view -> decoder_ok cd D dview inv ->
  let '(outs, r, w) := visited_archive cd E sched l in
  let xs := map counts_as outs in
  let d := w_bytes w in
  Forall (fun x => op_good (fst x)) xs -> Forall not_ignored outs -> Forall (fun x => dropped (fst x) = false) xs ->
  r = Ok tt -> Forall (fun x => worked (snd x) = true) xs -> len d < 0x10000000000000000 ->
  Forall (fun x => streamable cd (snd x)) (succeeded false xs) -> succeeded false xs <> [] ->
  exists es, Forall2 (written_as cd) (succeeded false xs) es /\
  forall stays s, s_data s = d -> s_pos s = 0 ->
  let '(ys, o) := d_walk D cfg stays s in
  Forall2 visited_as (firstn (length ys) es) ys /\ Forall no_complaint ys /\
  match o with
  | None => True
  | Some (Ok _) => length ys = length es
  | Some r => (exists c, In (RFail c) (s_sched s) /\ r = Err (UpstreamReadError (IoOther c))) \/
      r = Err EOFNotReached /\ exists ys0 y x, ys = ys0 ++ [y] /\ nth_error es (length ys0) = Some x /\ told (sd_polls y) <> snd x
  end.
Proof. exact (visited_walked cd E view D dview inv cfg sched l). Qed.
Print Assumptions C100_walked.

Definition polled2 : list visit :=
  [Polls false entry2 [PollWrite [x01; x02; x03; x04]; PollWrite [x04; x05]; PollFlush; PollFlush; PollWriteVectored [[]; [x06; x07]]; PollWrite []; PollClose] 9;
   Calls (OpComment [x68; x65; x79]);
   Calls (OpWhole entry1 [x68; x69])].
Definition stroller2 : list stay :=
  [{| sy_polls := [PollRead 9; PollRead 2; PollRead 9; PollRead 9; PollRead 9; PollRead 9]; sy_done := true; sy_patience := 9 |};
   {| sy_polls := [PollReadVectored [0; 1]]; sy_done := false; sy_patience := 9 |};
   {| sy_polls := []; sy_done := true; sy_patience := 0 |}].
Example C100_case : codec_ok toy /\ engine_ok toy (buffered toy) (fun g => g) /\
  let '(outs, r, w) := visited_archive toy (buffered toy) halting polled2 in
  let xs := map counts_as outs in
  let d := w_bytes w in
  Forall (fun x => op_good (fst x)) xs /\ Forall not_ignored outs /\ Forall (fun x => dropped (fst x) = false) xs /\
  r = Ok tt /\ Forall (fun x => worked (snd x) = true) xs /\ len d < 0x10000000000000000 /\
  Forall (fun x => streamable toy (snd x)) (succeeded false xs) /\ succeeded false xs <> [] /\
  seen (d_walk biting cfg0 stroller2 {| s_data := d; s_pos := 0; s_sched := s_sched halting_sample |}) =
    ([([RGot [x01]; RGot [x02]; RPend; RGot [x03]; RGot [x06]; RGot [x07]], Some true); ([RGot [x68]], Some false)], Some (Ok tt)).
Proof.
  split; [exact toy_ok|]. split; [exact (buffered_ok toy (proj1 toy_ok))|].
  assert (H : let '(outs, r, w) := visited_archive toy (buffered toy) halting polled2 in
    let xs := map counts_as outs in
    let d := w_bytes w in
    xs = [(OpStream false entry2 [SWriteAll [x01; x02; x03; x06; x07]] true, Ok tt); (OpComment [x68; x65; x79], Ok tt); (OpWhole entry1 [x68; x69], Ok tt)] /\
    forallb (fun x => forallb (fun y => match snd y with WErr _ => false | _ => true end) (snd (snd x))) outs = true /\
    r = Ok tt /\ len d < 0x10000000000000000 /\
    seen (d_walk biting cfg0 stroller2 {| s_data := d; s_pos := 0; s_sched := s_sched halting_sample |}) =
      ([([RGot [x01]; RGot [x02]; RPend; RGot [x03]; RGot [x06]; RGot [x07]], Some true); ([RGot [x68]], Some false)], Some (Ok tt)))
    by (vm_compute; repeat split; reflexivity).
  destruct (visited_archive toy (buffered toy) halting polled2) as [[outs r] w]. cbv zeta in *. destruct H as (H1 & H2 & H3 & H4 & H5).
  split; [rewrite H1; repeat constructor; cbn; discriminate|]. split.
  { apply Forall_forall. intros [v [r0 ys]] I. rewrite forallb_forall in H2. specialize (H2 _ I). cbn [snd] in H2. destruct v as [o|pre e l k]; [exact Logic.I|].
    destruct r0; [|exact Logic.I]. right. right. rewrite forallb_forall in H2. apply Forall_forall. intros y Y. specialize (H2 y Y). unfold poll_failed.
    now destruct (snd y). }
  rewrite H1. split; [repeat constructor|]. split; [exact H3|]. split; [repeat constructor|]. split; [exact H4|].
  split; [cbn [succeeded writes_entry worked andb app]; repeat constructor; cbn; discriminate|]. split; [discriminate|exact H5].
Qed.
