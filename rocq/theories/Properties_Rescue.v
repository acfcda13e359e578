(** Property theorems: what is copied into a new archive from a stream that was cut short. *)
From Verif Require Import Base BaseFacts Crc32 SpecFormat SpecCrc SpecArchive SpecRead SpecWrite SpecEncoder SpecBlame SpecMade SpecLively SpecExact SpecThrough SpecStream SpecOrdinary SpecSalvage SpecRemains ZString Headers ExtraField Entry IO IOFacts
  Reader EntryReader StreamReader Writer StreamPolls EncoderPolls AwaitedWrites
  ReaderPolls SpecReadPolls GiveUp DecoderPolls SpecDecoder DecoderWalk SpecWalk SpecAwake SpecEndure
  Samples WriteSamples DecoderSamples AwakeSamples EncoderSamples Properties_Lively Properties_Ordinary Properties_Endure Properties_Through Properties_Remains Piped Properties_Piped Relay SpecRelay Properties_Relay SpecRescue RescueProofs.
Import Writer SpecReadPolls Piped.

(** * C111. From an archive that was cut short a new one is made that holds what lies before the cut. *)
(** Whatever source and sink do: what is copied is what the archive held before it was cut, entry for entry, and of at most one more a beginning, of the entry that the cut goes through.
    The cut is not taken for the end of the archive. *)
Theorem C111_honest cd (D : decoder) view inv (E : engine cd) k cfg a all n l s w0 xs z outs w : decoder_ok cd D view inv -> dec_local cd -> len a < 0x10000000000000000 ->
  goes cd a all -> s_data s = upto n a -> s_pos s = 0 ->
  Forall relay_good l -> relay cd D E k cfg l s w0 = (xs, z, outs, w) ->
  exists es before after l' xs1 xs2 parts lost, all = before ++ after /\ entries_here cd a before l' /\ len a <= len l' + n /\ xs = xs1 ++ xs2 /\ outs = concat parts ++ lost /\ relays_as l es xs1 parts /\
    (xs2 = [] /\ lost = [] \/ exists x, xs2 = [x] /\ relay_gives x = false /\ relay_lost lost) /\
    (es = before \/ exists x more y tail, after = x :: more /\ es = before ++ [y] /\ prefix (snd y) (snd x) /\ entry_here cd l' (fst x) (snd x) tail /\ n + len tail < len a) /\
    (forall u, z = Some (Ok u) -> es = all /\ xs2 = []).
Proof. exact (fun OK => cut_relayed cd D view inv OK E k cfg a all n l s w0 xs z outs w). Qed.
Print Assumptions C111_honest.
(** Whatever the sink does: with patience for the source, all that lies before the cut is come by, or a fault of the source is told. *)
Theorem C111_through cd (D : decoder) view inv (E : engine cd) k cfg a before l' n l s w0 xs z outs w : decoder_ok cd D view inv -> decoder_lively D ->
  dec_local cd -> Forall relay_good l -> len a < 0x10000000000000000 ->
  entries_here cd a before l' -> l' <> [] -> len a <= len l' + n -> s_data s = upto n a -> s_pos s = 0 ->
  (length before <= length l)%nat -> Forall2 (relay_patient (delays (s_sched s))) before (firstn (length before) l) -> relay cd D E k cfg l s w0 = (xs, z, outs, w) ->
  (exists xs1 xs2 parts more, xs = xs1 ++ xs2 /\ outs = concat parts ++ more /\ relays_as l before xs1 parts) \/
  exists c, In (RFail c) (s_sched s) /\ z = Some (Err (UpstreamReadError (IoOther c))).
Proof. exact (fun OK LV => cut_through cd D view inv OK E k cfg LV a before l' n l s w0 xs z outs w). Qed.
Print Assumptions C111_through.
(** When neither source nor sink fails, all of it that the caller wants is copied, and the new archive is closed. *)
Theorem C111_saved cd (D : decoder) view inv (E : engine cd) eview k cfg sched a before l' n l s xs z outs w : decoder_ok cd D view inv -> decoder_lively D ->
  dec_local cd -> enc_takes cd -> engine_ok cd E eview -> engine_lively cd E eview ->
  Forall relay_good l -> Forall relay_handy l -> len a < 0x10000000000000000 -> entries_here cd a before l' -> l' <> [] -> len a <= len l' + n -> s_data s = upto n a -> s_pos s = 0 ->
  (length before <= length l)%nat -> Forall2 (relay_patient (delays (s_sched s))) before (firstn (length before) l) -> nofail (s_sched s) -> obliging sched -> Forall (relay_awaits k sched) l ->
  relay cd D E k cfg l s (zw_new sched) = (xs, z, outs, w) ->
  (exists xs2, xs = relay_ideal before l ++ xs2) /\ fst (zw_close w) = Ok tt.
Proof. exact (fun OK LV => cut_saved cd D view inv OK E k cfg LV eview sched a before l' n l s xs z outs w). Qed.
Print Assumptions C111_saved.
(** It is then found there, in its place, under the name that the caller chose, and is read around any decoder. *)
Theorem C111_found cd (D : decoder) view inv (E : engine cd) eview k (D2 : decoder) view2 inv2 cfg sched a before l' n l s xs z outs w w' : decoder_ok cd D view inv -> decoder_lively D ->
  dec_local cd -> codec_ok cd -> engine_ok cd E eview -> engine_lively cd E eview ->
  decoder_ok cd D2 view2 inv2 -> decoder_lively D2 ->
  Forall relay_good l -> Forall relay_handy l -> len a < 0x10000000000000000 -> entries_here cd a before l' -> l' <> [] -> len a <= len l' + n -> s_data s = upto n a -> s_pos s = 0 ->
  (length before <= length l)%nat -> Forall2 (relay_patient (delays (s_sched s))) before (firstn (length before) l) -> nofail (s_sched s) -> obliging sched -> Forall (relay_awaits k sched) l ->
  relay cd D E k cfg l s (zw_new sched) = (xs, z, outs, w) -> zw_close w = (Ok tt, w') ->
  unambiguous cd cfg (map fst (map settled outs)) (map settled outs) (w_zip64 w') (w_bytes w') ->
  exists f2, mem_new cfg (w_bytes w') = Ok {| m_data := w_bytes w'; m_file := f2 |} /\
  forall p x y e, nth_error before p = Some x -> nth_error l p = Some y -> rp_as y (fst x) = Some e ->
  exists body st it, fed_bytes body = snd x /\ nth_error (f_entries f2) (relay_place p (relay_ideal before l)) = Some st /\
    leaves cd false (OpStream false e body true) it /\ as_written (w_bytes w') it st /\ texts_kept it st /\
    forall ns s2, s_data s2 = w_bytes w' -> Forall (fun n => 0 < n) ns -> (delays (s_sched s2) + length (snd x) < length ns)%nat ->
      d_read_entry D2 ns f2 (N.of_nat (relay_place p (relay_ideal before l))) s2 = Some (Ok (snd x)) \/
      exists c, In (RFail c) (s_sched s2) /\ d_read_entry D2 ns f2 (N.of_nat (relay_place p (relay_ideal before l))) s2 = Some (Err (UpstreamReadError (IoOther c))).
Proof. exact (fun OK LV => cut_found cd D view inv OK E k cfg LV eview D2 view2 inv2 sched a before l' n l s xs z outs w w'). Qed.
Print Assumptions C111_found.
(** Nothing else is in the new archive: each entry that it has reads as one of the old archive's, or as a beginning of the one that the cut goes through. *)
Theorem C111_only cd (D : decoder) view inv (E : engine cd) eview k (D2 : decoder) view2 inv2 cfg sched a all n l s xs z outs w w' :
  decoder_ok cd D view inv -> dec_local cd -> codec_ok cd -> engine_ok cd E eview ->
  decoder_ok cd D2 view2 inv2 -> decoder_lively D2 ->
  len a < 0x10000000000000000 -> goes cd a all -> s_data s = upto n a -> s_pos s = 0 -> Forall relay_good l ->
  relay cd D E k cfg l s (zw_new sched) = (xs, z, outs, w) -> zw_close w = (Ok tt, w') ->
  unambiguous cd cfg (map fst (map settled outs)) (map settled outs) (w_zip64 w') (w_bytes w') ->
  exists f2, mem_new cfg (w_bytes w') = Ok {| m_data := w_bytes w'; m_file := f2 |} /\
  forall j st, nth_error (f_entries f2) j = Some st ->
  exists p x data, nth_error all p = Some x /\ prefix data (snd x) /\
    (data = snd x \/ exists l' tail, entries_here cd a (firstn p all) l' /\ entry_here cd l' (fst x) (snd x) tail /\ n + len tail < len a) /\
    forall ns s2, s_data s2 = w_bytes w' -> Forall (fun n => 0 < n) ns -> (delays (s_sched s2) + length data < length ns)%nat ->
      d_read_entry D2 ns f2 (N.of_nat j) s2 = Some (Ok data) \/
      exists c, In (RFail c) (s_sched s2) /\ d_read_entry D2 ns f2 (N.of_nat j) s2 = Some (Err (UpstreamReadError (IoOther c))).
Proof. exact (cut_only cd D view inv E k cfg eview D2 view2 inv2 sched a all n l s xs z outs w w'). Qed.
Print Assumptions C111_only.

(** The premises, of an archive that was cut within its second entry, over a source and a sink that make the caller wait; the first entry is in the new archive. *)
Example C111_case : dec_local toy /\ codec_ok toy /\ decoder_ok toy biting bite_view bite_inv /\ decoder_lively biting /\ engine_ok toy (buffered toy) (fun g => g) /\ engine_lively toy (buffered toy) (fun g => g) /\
  Forall relay_good plans /\ Forall relay_handy plans /\ len sample < 0x10000000000000000 /\ nofail slowly /\ obliging lags /\ Forall (relay_awaits 60 lags) plans /\
  (exists all, goes toy sample all /\ map snd all = [data1; [x78; x79]]) /\
  (exists x, entries_here toy sample [x] (past 34 sample) /\ snd x = data1 /\ past 34 sample <> [] /\ len sample <= len (past 34 sample) + 70 /\ (length [x] <= length plans)%nat /\
    Forall2 (relay_patient (delays slowly)) [x] (firstn (length [x]) plans) /\ rp_as (takes_as entry3) (fst x) = Some entry3) /\
  reckon 60 plans (flaky (upto 70 sample) slowly) lags = ([Relayed (Some (Ok tt)); Torn], Some (Err (UpstreamReadError UnexpectedEof)), Ok tt, [Some (Ok data1)]) /\
  exists xs z outs w w', relay toy biting (buffered toy) 60 cfg0 plans (flaky (upto 70 sample) slowly) (zw_new lags) = (xs, z, outs, w) /\ zw_close w = (Ok tt, w') /\
    unambiguous toy cfg0 (map fst (map settled outs)) (map settled outs) (w_zip64 w') (w_bytes w').
Proof.
  split; [exact toy_local|]. split; [exact toy_ok|]. split; [exact biting_ok|]. split; [exact biting_lively|]. destruct (C101_met toy (proj1 toy_ok)) as [M1 M2]. split; [exact M1|]. split; [exact M2|].
  split; [exact (proj1 plans_good)|]. split; [exact (proj2 plans_good)|]. split; [vm_compute; reflexivity|]. split; [repeat constructor|]. split; [repeat constructor; discriminate|].
  split; [repeat (constructor; [apply Nat.ltb_lt; vm_compute; reflexivity|]); constructor|]. split; [destruct C68_case as (_ & _ & _ & X); exact X|]. split.
  { destruct C107_recovered_case as (x & EH & SX & NE & LL & _). exists x. split; [exact EH|]. split; [exact SX|]. split; [exact NE|]. split; [exact LL|]. split; [cbn [length plans]; lia|]. split; [|reflexivity].
    constructor; [|constructor]. unfold relay_patient. rewrite SX. cbn [takes_as rp_as rp_buffers rp_patience]. split; apply Nat.ltb_lt; vm_compute; reflexivity. }
  split; [vm_compute; reflexivity|].
  assert (H : let '(xs, z, outs, w) := relay toy biting (buffered toy) 60 cfg0 plans (flaky (upto 70 sample) slowly) (zw_new lags) in let '(r, w') := zw_close w in
    r = Ok tt /\ clear_end (map settled outs) (w_zip64 w') (last_comment (map fst (map settled outs))) (w_bytes w') = true) by (vm_compute; repeat split; reflexivity).
  destruct (relay toy biting (buffered toy) 60 cfg0 plans (flaky (upto 70 sample) slowly) (zw_new lags)) as [[[xs z] outs] w]. destruct (zw_close w) as [r w'] eqn:C. cbv zeta in H. destruct H as (-> & H2).
  exists xs, z, outs, w, w'. split; [reflexivity|]. split; [exact C|]. exact (clear_end_ok toy _ _ _ _ H2).
Qed.
(** Cut within stored data, of which a beginning is copied; in a header; in a data descriptor; in the signature of the directory; and behind it. *)
Example C111_case2 : map (fun n => let '(xs, z, r, ds) := reckon 60 plans (flaky (upto n sample) slowly) lags in (z, r, ds)) [33; 50; 80; 90; 92] =
  [(ended_early, Ok tt, [Some (Ok [x68; x69])]); (ended_early, Ok tt, [Some (Ok data1)]); (ended_early, Ok tt, [Some (Ok data1)]);
   (ended_early, Ok tt, [Some (Ok data1); Some (Ok [x78; x79])]); (Some (Ok tt), Ok tt, [Some (Ok data1); Some (Ok [x78; x79])])].
Proof. vm_compute. reflexivity. Qed.
