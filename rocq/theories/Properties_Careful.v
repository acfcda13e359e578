(** Property theorems: entries copied from a stream into a new archive, with their checksums compared, around any decoder and any encoder, over a troublesome source and sink. *)
From Verif Require Import Base BaseFacts Crc32 SpecFormat SpecCrc SpecArchive SpecRead SpecWrite SpecEncoder SpecBlame SpecMade SpecLively SpecExact SpecThrough SpecStream SpecOrdinary SpecSalvage ZString Headers ExtraField Entry IO IOFacts
  Reader EntryReader StreamReader Writer StreamPolls EncoderPolls AwaitedWrites
  ReaderPolls SpecReadPolls GiveUp DecoderPolls SpecDecoder DecoderWalk SpecWalk SpecAwake SpecEndure
  Samples WriteSamples DecoderSamples AwakeSamples EncoderSamples Properties_Lively Properties_Ordinary Properties_Endure Properties_Through Piped PipedProofs Properties_Piped Relay SpecRelay Properties_Relay Careful SpecCareful CarefulProofs.
Import Writer SpecReadPolls Piped.

(** * C114. A caller that compares the checksum before it closes an entry copies none that does not fit. *)
(** To the writer this too is an ordinary session of awaited calls. An entry that was left behind is copied when its checksum is the told one, or it is not heeded, and is dropped when it is not. *)
Theorem C114_told cd (D : decoder) view inv (E : engine cd) k cfg heed l s w0 xs z outs w : decoder_ok cd D view inv ->
  Forall relay_good l -> len (s_data s) < 0x10000000000000000 -> careful cd D E k cfg heed l s w0 = (xs, z, outs, w) ->
  awaited_ops cd E k (map fst outs) w0 = (outs, w) /\ Forall op_good (map fst outs) /\
  exists es rest xs1 xs2 parts lost, xs = xs1 ++ xs2 /\ outs = concat parts ++ lost /\ entries_here cd (past (s_pos s) (s_data s)) es rest /\ cares_as heed l es xs1 parts /\
    (xs2 = [] /\ lost = [] \/ exists x, xs2 = [x] /\ relay_gives x = false /\ relay_lost lost) /\
    (forall u, z = Some (Ok u) -> xs2 = [] /\ exists b, rest = le 4 0x02014b50 ++ b).
Proof. exact (fun OK => care_told cd D view inv OK E k cfg heed l s w0 xs z outs w). Qed.
Print Assumptions C114_told.
(** Whatever the sink does, and whatever the checksums are: given patience for the source, a stream that holds the entries [es] up to its directory is gone through to the end, or a fault of the source is told. *)
Theorem C114_ends cd (D : decoder) view inv (E : engine cd) k cfg heed l s w0 xs z outs w es : decoder_ok cd D view inv -> decoder_lively D ->
  Forall relay_good l -> len (s_data s) < 0x10000000000000000 -> goes cd (past (s_pos s) (s_data s)) es -> (length es < length l)%nat ->
  Forall2 (relay_patient (delays (s_sched s))) es (firstn (length es) l) -> careful cd D E k cfg heed l s w0 = (xs, z, outs, w) ->
  z = Some (Ok tt) /\ (exists parts, outs = concat parts /\ cares_as heed l es xs parts) \/ exists c, In (RFail c) (s_sched s) /\ z = Some (Err (UpstreamReadError (IoOther c))).
Proof. exact (fun OK LV => care_ends cd D view inv OK E k cfg heed LV l s w0 xs z outs w es). Qed.
Print Assumptions C114_ends.
(** A writer that does not end well met a fault of its sink, or was not awaited long enough. *)
Theorem C114_blamed cd (D : decoder) view inv (E : engine cd) eview k cfg heed sched l s xs z outs w : decoder_ok cd D view inv ->
  enc_takes cd -> engine_ok cd E eview -> engine_lively cd E eview ->
  Forall relay_good l -> Forall relay_handy l -> len (s_data s) < 0x10000000000000000 -> careful cd D E k cfg heed l s (zw_new sched) = (xs, z, outs, w) ->
  exists es rest xs1 xs2, xs = xs1 ++ xs2 /\ entries_here cd (past (s_pos s) (s_data s)) es rest /\ Forall2 (relay_blamed k sched) es xs1 /\
    (xs2 = [] \/ exists x, xs2 = [x] /\ relay_gives x = false) /\ (forall u, z = Some (Ok u) -> xs2 = []).
Proof. exact (fun OK => care_blames cd D view inv OK E k cfg heed eview sched l s xs z outs w). Qed.
Print Assumptions C114_blamed.
(** Whatever else went wrong: if the new archive is closed and its end is found, it has an entry for each that was copied, under the name that the caller chose, with the content that lies in the stream, and that is one the header tells the checksum of, where the caller heeds it. *)
Theorem C114_copied cd (D : decoder) view inv (E : engine cd) eview k (D2 : decoder) view2 inv2 cfg heed sched l s xs z outs w w' :
  decoder_ok cd D view inv -> codec_ok cd -> engine_ok cd E eview -> decoder_ok cd D2 view2 inv2 -> decoder_lively D2 ->
  Forall relay_good l -> len (s_data s) < 0x10000000000000000 -> careful cd D E k cfg heed l s (zw_new sched) = (xs, z, outs, w) -> zw_close w = (Ok tt, w') ->
  made cd (map settled outs) (w_bytes w) (w_zip64 w') (w_bytes w') /\
  (unambiguous cd cfg (map fst (map settled outs)) (map settled outs) (w_zip64 w') (w_bytes w') ->
   exists f2 es rest, mem_new cfg (w_bytes w') = Ok {| m_data := w_bytes w'; m_file := f2 |} /\ entries_here cd (past (s_pos s) (s_data s)) es rest /\
   (forall u, z = Some (Ok u) -> length xs = length es /\ exists b, rest = le 4 0x02014b50 ++ b) /\
   length (f_entries f2) = relay_place (length xs) xs /\
   forall p t u, nth_error xs p = Some (t, Relayed (Some (Ok u))) ->
   exists y e data body st it, nth_error l p = Some y /\ nth_error es p = Some (t, data) /\ rp_as y t = Some e /\ sum_fits heed (t, data) /\ fed_bytes body = data /\
     nth_error (f_entries f2) (relay_place p xs) = Some st /\ leaves cd false (OpStream false e body true) it /\ as_written (w_bytes w') it st /\ texts_kept it st /\
     forall ns s2, s_data s2 = w_bytes w' -> Forall (fun n => 0 < n) ns -> (delays (s_sched s2) + length data < length ns)%nat ->
      d_read_entry D2 ns f2 (N.of_nat (relay_place p xs)) s2 = Some (Ok data) \/
      exists c, In (RFail c) (s_sched s2) /\ d_read_entry D2 ns f2 (N.of_nat (relay_place p xs)) s2 = Some (Err (UpstreamReadError (IoOther c)))).
Proof. exact (fun OK => cared_back cd D view inv OK E k cfg heed eview D2 view2 inv2 sched l s xs z outs w w'). Qed.
Print Assumptions C114_copied.
(** When nothing is in the way, what the caller wants is copied unless its checksum is another, and the new archive is closed. *)
Theorem C114_done cd (D : decoder) view inv (E : engine cd) eview k cfg heed sched l s xs z outs w es : decoder_ok cd D view inv -> decoder_lively D ->
  enc_takes cd -> engine_ok cd E eview -> engine_lively cd E eview ->
  Forall relay_good l -> Forall relay_handy l -> len (s_data s) < 0x10000000000000000 -> goes cd (past (s_pos s) (s_data s)) es -> (length es < length l)%nat ->
  Forall2 (relay_patient (delays (s_sched s))) es (firstn (length es) l) -> nofail (s_sched s) -> obliging sched -> Forall (fun x => (waits sched + length (snd x) < k)%nat) es ->
  careful cd D E k cfg heed l s (zw_new sched) = (xs, z, outs, w) -> xs = care_ideal heed es l /\ z = Some (Ok tt) /\ fst (zw_close w) = Ok tt.
Proof. exact (fun OK LV => care_done cd D view inv OK E k cfg heed LV eview sched l s xs z outs w es). Qed.
Print Assumptions C114_done.

(** What is copied is not made by up to four changed bytes in a row of a content with the checksum that the header tells. *)
Theorem C114_marred cd (D : decoder) view inv (E : engine cd) k cfg heed l s w0 xs z outs w : decoder_ok cd D view inv ->
  Forall relay_good l -> len (s_data s) < 0x10000000000000000 -> careful cd D E k cfg heed l s w0 = (xs, z, outs, w) ->
  exists es rest, entries_here cd (past (s_pos s) (s_data s)) es rest /\ forall p t u, nth_error xs p = Some (t, Relayed (Some (Ok u))) ->
  exists data, nth_error es p = Some (t, data) /\
    (heed t = true -> forall a x y b, data = a ++ x ++ b -> length x = length y -> (length x <= 4)%nat -> x <> y -> crc32_spec (a ++ y ++ b) <> en_crc32 t).
Proof. exact (fun OK => care_marred cd D view inv OK E k cfg heed l s w0 xs z outs w). Qed.
Print Assumptions C114_marred.
(** A caller that heeds no header is the one of C110: asking for the hash changes nothing. *)
Theorem C114_plain cd (D : decoder) (E : engine cd) k cfg l s w : careful cd D E k cfg (fun _ => false) l s w = relay cd D E k cfg l s w.
Proof. exact (careless cd D E k cfg l s w). Qed.
Print Assumptions C114_plain.

(** where the header holds no checksum, there is one behind the data; or none is trusted to be missing *)
Definition if_told (z : zentry) : bool := negb (en_crc32 z =? 0).
Definition always (z : zentry) : bool := true.
Definition recheck (heed : zentry -> bool) (k : nat) (l : list relay_plan) (s : source) (sched : list wevent) :=
  let '(xs, z, _, w) := careful toy biting (buffered toy) k cfg0 heed l s (zw_new sched) in
  let '(r, w') := zw_close w in
  (map snd xs, z, r, match fst (file cfg0 (cursor (w_bytes w'))) with
    | Ok f2 => map (fun i => d_read_entry biting (repeat 4 12) f2 (N.of_nat i) (cursor (w_bytes w'))) (seq 0 (length (f_entries f2)))
    | _ => []
    end).
(** The premises (C110_case has those on the caller, the source and the sink), with a first entry that was changed on the way: it is refused, what follows is copied. *)
Example C114_case : decoder_ok toy biting bite_view bite_inv /\ decoder_lively biting /\ Forall relay_good plans /\ Forall relay_handy plans /\ len marred < 0x10000000000000000 /\ nofail slowly /\ obliging lags /\
  recheck if_told 20 plans (flaky marred slowly) lags = ([Torn; Relayed (Some (Ok tt))], Some (Ok tt), Ok tt, [Some (Ok [x78; x79])]) /\
  exists xs z outs w w', careful toy biting (buffered toy) 20 cfg0 if_told plans (flaky marred slowly) (zw_new lags) = (xs, z, outs, w) /\ zw_close w = (Ok tt, w') /\
    unambiguous toy cfg0 (map fst (map settled outs)) (map settled outs) (w_zip64 w') (w_bytes w') /\ map (fun p => relay_place p xs) [0; 1; 2]%nat = [0; 0; 1]%nat.
Proof.
  split; [exact biting_ok|]. split; [exact biting_lively|]. split; [exact (proj1 plans_good)|]. split; [exact (proj2 plans_good)|]. split; [vm_compute; reflexivity|]. split; [repeat constructor|]. split; [repeat constructor; discriminate|].
  split; [vm_compute; reflexivity|].
  assert (H : let '(xs, z, outs, w) := careful toy biting (buffered toy) 20 cfg0 if_told plans (flaky marred slowly) (zw_new lags) in let '(r, w') := zw_close w in
    r = Ok tt /\ clear_end (map settled outs) (w_zip64 w') (last_comment (map fst (map settled outs))) (w_bytes w') = true /\ map (fun p => relay_place p xs) [0; 1; 2]%nat = [0; 0; 1]%nat)
    by (vm_compute; repeat split; reflexivity).
  destruct (careful toy biting (buffered toy) 20 cfg0 if_told plans (flaky marred slowly) (zw_new lags)) as [[[xs z] outs] w]. destruct (zw_close w) as [r w'] eqn:C. cbv zeta in H. destruct H as (-> & H2 & H3).
  exists xs, z, outs, w, w'. split; [reflexivity|]. split; [exact C|]. split; [exact (clear_end_ok toy _ _ _ _ H2)|exact H3].
Qed.
(** An archive that was not changed is copied whole; one whose stored data are cut short is not passed off as whole; a caller that always compares refuses an entry whose checksum lies behind its data. *)
Example C114_case2 :
  recheck if_told 20 plans (flaky sample slowly) lags = ([Relayed (Some (Ok tt)); Relayed (Some (Ok tt))], Some (Ok tt), Ok tt, [Some (Ok [x68; x69; x21]); Some (Ok [x78; x79])]) /\
  recheck if_told 20 plans (flaky (upto 33 sample) slowly) lags = ([Torn], Some (Err (UpstreamReadError UnexpectedEof)), Ok tt, []) /\
  recheck always 20 plans (flaky sample slowly) lags = ([Relayed (Some (Ok tt)); Torn], Some (Ok tt), Ok tt, [Some (Ok [x68; x69; x21])]).
Proof. repeat split; vm_compute; reflexivity. Qed.
(** The entries of the changed archive: the first does not fit, the second is not heeded; with [C114_case] these are the premises of [C114_ends] and [C114_done]. *)
Example C114_case3 : exists es, goes toy marred es /\ map snd es = [[x48; x69; x21]; [x78; x79]] /\ map (fun z => if_told (fst z)) es = [true; false] /\ map (fun z => crc32_spec (snd z) =? en_crc32 (fst z)) es = [false; false] /\
  Forall2 (relay_patient (delays slowly)) es (firstn (length es) plans) /\ Forall (fun x => (waits lags + length (snd x) < 20)%nat) es /\ map snd (care_ideal if_told es plans) = [Torn; Relayed (Some (Ok tt))].
Proof.
  set (all := fun (_ : nat) (_ : zentry) => @None (list N)). assert (L : len marred < 0x10000000000000000) by (vm_compute; reflexivity).
  assert (H : match pick toy cfg0 all 9 0 (cursor marred) with
    | Ok ys => map snd ys = [[x48; x69; x21]; [x78; x79]] /\ map (fun z => if_told (fst z)) ys = [true; false] /\ map (fun z => crc32_spec (snd z) =? en_crc32 (fst z)) ys = [false; false] /\ map snd (care_ideal if_told ys plans) = [Torn; Relayed (Some (Ok tt))]
    | _ => False end) by (vm_compute; repeat split; reflexivity).
  destruct (pick toy cfg0 all 9 0 (cursor marred)) as [ys|e|p] eqn:P; [|destruct H|destruct H].
  destruct (C68_reported toy cfg0 all (cursor marred) 9 0 ys L P) as (xs & G & Q).
  assert (E : forall a i b, picked all i a b -> b = a).
  { clear. induction a as [|[z o] a IH]; intros i [|[z' o'] b] Q; try contradiction; [reflexivity|]. destruct Q as (-> & -> & Q). now rewrite (IH _ _ Q). }
  rewrite (E _ _ _ Q) in H. destruct H as (MS & H1 & H2 & H3). exists xs. split; [exact G|]. split; [exact MS|]. split; [exact H1|]. split; [exact H2|].
  destruct xs as [|[z1 d1] [|[z2 d2] [|]]]; try discriminate MS. cbn [map snd] in MS. injection MS as -> ->. split; [repeat constructor; cbn; lia|]. split; [repeat constructor; cbn; lia|exact H3].
Qed.
