(** Property theorems: streams of any method, polled in any order. *)
From Verif Require Import Base SpecFormat SpecCrc SpecArchive SpecRead SpecWrite SpecSize SpecStrict SpecAccept SpecLax SpecRepack SpecInterop SpecPolls SpecEncoder ZString ZDate
  Headers ExtraField Entry IO IOFacts Reader EntryReader Writer StreamPolls EncoderPolls Samples WriteSamples EndProofs InteropProofs ChainFacts EncoderProofs EncoderSamples.


(** * C97. Whatever polls a stream went through, of whatever method, the archive reads back as what they reported. *)
(** [outs] tells what every poll said; [counts_as] makes a call of what a stream reported as taken. *)
Theorem C97_back cd (E : engine cd) view cfg sched s l : codec_ok cd -> engine_ok cd E view ->
  let '(outs, r, w) := visited_archive cd E sched l in
  let xs := map counts_as outs in
  let d := w_bytes w in
  Forall (fun x => op_good (fst x)) xs -> Forall not_ignored outs ->
  r = Ok tt -> unambiguous cd cfg (map fst xs) xs (w_zip64 w) d -> s_data s = d -> nofail (s_sched s) ->
  exists f, fst (file cfg s) = Ok f /\ mem_new cfg d = Ok {| m_data := d; m_file := f |} /\ f_zip64 f = w_zip64 w /\
    comment_reads_as (last_comment (map fst xs)) (f_comment f) /\
    Forall2 (fun x st => exists it, leaves cd (fst x) (snd x) it /\ as_written d it st /\ texts_kept it st) (succeeded false xs) (f_entries f) /\
    (forall i no64 o data, nth_error (succeeded false xs) (N.to_nat i) = Some (no64, o) -> holds cd o data ->
       (forall it, leaves cd no64 o it -> straight it) ->
       read_entry cd f i s = Ok data /\ mem_read_entry cd {| m_data := d; m_file := f |} i = Ok data).
Proof. exact (visited_back cd E view cfg sched s l). Qed.
Print Assumptions C97_back.
(** Readers that follow the specification see the same (as in C94). *)
Theorem C97_seen cd (E : engine cd) view sched l : codec_ok cd -> engine_ok cd E view ->
  let '(outs, r, w) := visited_archive cd E sched l in
  let xs := map counts_as outs in
  let d := w_bytes w in
  Forall (fun x => op_good (fst x)) xs -> Forall not_ignored outs ->
  r = Ok tt -> len d < 0x10000000000000000 -> Forall (fun x => too_many (snd x) = false) xs -> sizes_tell cd d (succeeded false xs) ->
  others_clear (w_zip64 w) (last_comment (map fst xs)) d -> (w_zip64 w = true \/ len d <= 0xFFFFFFFF) ->
  (len d <= 0xFFFFFFFF \/ ~ found_at (le 4 0x04034b50) d 0xFFFFFFFF) -> Forall (unexchanged cd) (succeeded false xs) -> Forall (told_right cd) (succeeded false xs) ->
  exists vs, sights cd d = Some vs /\ Forall2 (fun x v => seen_as cd (snd x) v) (succeeded false xs) vs.
Proof. exact (visited_seen cd E view sched l). Qed.
Print Assumptions C97_seen.
(** The contract can be met: an encoder with a buffer does. *)
Theorem C97_engine cd : enc_takes cd -> engine_ok cd (buffered cd) (fun g => g).
Proof. exact (buffered_ok cd). Qed.
Print Assumptions C97_engine.

(** a compressed stream that is flushed, closed and given up while the sink waits; a stream that is not compressed; one that is dropped *)
Definition polled1 : list visit :=
  [Polls false entry2 [PollWrite [x01; x02; x03; x04]; PollWrite [x04; x05]; PollFlush; PollFlush; PollWriteVectored [[]; [x06; x07]]; PollWrite []; PollClose] 9;
   Calls (OpComment [x68; x65; x79]);
   Polls false entry1 [PollWrite [x68; x69]; PollWrite [x69; x21]; PollClose] 1;
   Polls false entry2 [PollWrite [x07]; PollFlush] 0;
   Calls (OpWhole entry2 [x09])].
Definition halting : list wevent := repeat (WAccept 99) 4 ++ [WAccept 3; WPending; WPending; WAccept 1; WPending; WAccept 2; WPending; WAccept 9; WPending; WAccept 1; WPending; WPending; WAccept 2].
Example C97_case : codec_ok toy /\ engine_ok toy (buffered toy) (fun g => g) /\
  let '(outs, r, w) := visited_archive toy (buffered toy) halting polled1 in
  let xs := map counts_as outs in
  let d := w_bytes w in
  Forall (fun x => op_good (fst x)) xs /\ Forall not_ignored outs /\ r = Ok tt /\ unambiguous toy cfg0 (map fst xs) xs (w_zip64 w) d /\
  map (fun x => map snd (snd (snd x))) outs =
    [[WDone 3; WPend; WPend; WPend; WDone 2; WDone 0; WPend]; []; [WDone 2; WDone 2; WDone 0]; [WDone 1; WDone 0]; []] /\
  exists f, mem_new cfg0 d = Ok {| m_data := d; m_file := f |} /\ len (f_entries f) = 3 /\
    mem_read_entry toy {| m_data := d; m_file := f |} 0 = Ok [x01; x02; x03; x06; x07] /\
    mem_read_entry toy {| m_data := d; m_file := f |} 1 = Ok [x68; x69; x69; x21].
Proof.
  split; [exact toy_ok|]. split; [exact (buffered_ok toy (proj1 toy_ok))|].
  assert (H : let '(outs, r, w) := visited_archive toy (buffered toy) halting polled1 in
    let xs := map counts_as outs in
    let d := w_bytes w in
    map fst xs = [OpStream false entry2 [SWriteAll [x01; x02; x03; x06; x07]] true; OpComment [x68; x65; x79]; OpStream false entry1 [SWriteAll [x68; x69; x69; x21]] true;
      OpStream false entry2 [SWriteAll [x07]] false; OpWhole entry2 [x09]] /\
    forallb (fun x => forallb (fun y => match snd y with WErr _ => false | _ => true end) (snd (snd x))) outs = true /\
    r = Ok tt /\ clear_end xs (w_zip64 w) (last_comment (map fst xs)) d = true /\
    map (fun x => map snd (snd (snd x))) outs =
      [[WDone 3; WPend; WPend; WPend; WDone 2; WDone 0; WPend]; []; [WDone 2; WDone 2; WDone 0]; [WDone 1; WDone 0]; []] /\
    opened d (fun f => (len (f_entries f), mem_read_entry toy {| m_data := d; m_file := f |} 0, mem_read_entry toy {| m_data := d; m_file := f |} 1)) =
      Some (3, Ok [x01; x02; x03; x06; x07], Ok [x68; x69; x69; x21])) by (vm_compute; repeat split; reflexivity).
  destruct (visited_archive toy (buffered toy) halting polled1) as [[outs r] w]. cbv zeta in *. destruct H as (H1 & H2 & H3 & H4 & H5 & H6).
  split; [rewrite <- (Forall_map fst op_good), H1; repeat constructor; cbn; discriminate|]. split.
  { apply Forall_forall. intros [v [r0 ys]] I. rewrite forallb_forall in H2. specialize (H2 _ I). cbn [snd] in H2. destruct v as [o|pre e l k]; [exact Logic.I|].
    destruct r0; [|exact Logic.I]. right. right. rewrite forallb_forall in H2. apply Forall_forall. intros y Y. specialize (H2 y Y). unfold poll_failed.
    now destruct (snd y). }
  split; [exact H3|]. split; [apply clear_end_ok, H4|]. split; [exact H5|]. apply opened_ok in H6 as (f & F & G). injection G as G1 G2 G3. now exists f.
Qed.
(** Not if a poll that failed is made again: the encoder may have taken the data in before the sink failed. *)
Definition broken : list wevent := repeat (WAccept 99) 5 ++ [WFail 7].
Example C97_needed : let '(outs, r, w) := visited_archive toy (buffered toy) broken [Polls false entry2 [PollWrite [x01]; PollWrite [x02]; PollWrite [x02]] 9] in
  map snd outs = [(Some (Ok tt), [(PollWrite [x01], WDone 1); (PollWrite [x02], WErr (IoOther 7)); (PollWrite [x02], WDone 1)])] /\ r = Ok tt /\
  opened (w_bytes w) (fun f => mem_read_entry toy {| m_data := w_bytes w; m_file := f |} 0) = Some (Err CRC32CheckError).
Proof. vm_compute. repeat split; reflexivity. Qed.
