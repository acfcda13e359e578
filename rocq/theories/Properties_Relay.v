(** Property theorems: entries copied from a stream into a new archive while they arrive, around any decoder and any encoder, over a troublesome source and sink. *)
From Verif Require Import Base BaseFacts Crc32 SpecFormat SpecCrc SpecArchive SpecRead SpecWrite SpecEncoder SpecBlame SpecMade SpecLively SpecExact SpecThrough SpecStream SpecOrdinary SpecSalvage ZString Headers ExtraField Entry IO IOFacts
  Reader EntryReader StreamReader Writer StreamPolls EncoderPolls AwaitedWrites
  ReaderPolls SpecReadPolls GiveUp DecoderPolls SpecDecoder DecoderWalk SpecWalk SpecAwake SpecEndure
  Samples WriteSamples DecoderSamples AwakeSamples EncoderSamples Properties_Lively Properties_Ordinary Properties_Endure Properties_Through Piped PipedProofs Properties_Piped Relay SpecRelay RelayProofs.
Import Writer SpecReadPolls Piped.

(** * C110. What is copied from a stream while it arrives is what lies there, and what does not arrive says why. *)
(** To the writer a relay is an ordinary session of awaited calls, and these are those: entry for entry of what lies in the stream, and at most one more of which nothing comes.
    When it says that it came to the end, the directory stands there. *)
Theorem C110_told cd (D : decoder) view inv (E : engine cd) k cfg l s w0 xs z outs w : decoder_ok cd D view inv ->
  Forall relay_good l -> len (s_data s) < 0x10000000000000000 -> relay cd D E k cfg l s w0 = (xs, z, outs, w) ->
  awaited_ops cd E k (map fst outs) w0 = (outs, w) /\ Forall op_good (map fst outs) /\
  exists es rest xs1 xs2 parts lost, xs = xs1 ++ xs2 /\ outs = concat parts ++ lost /\ entries_here cd (past (s_pos s) (s_data s)) es rest /\ relays_as l es xs1 parts /\
    (xs2 = [] /\ lost = [] \/ exists x, xs2 = [x] /\ relay_gives x = false /\ relay_lost lost) /\
    (forall u, z = Some (Ok u) -> xs2 = [] /\ exists b, rest = le 4 0x02014b50 ++ b).
Proof. exact (fun OK => relay_told cd D view inv OK E k cfg l s w0 xs z outs w). Qed.
Print Assumptions C110_told.
(** Whatever the sink does: given patience for the source, a stream that holds the entries [es] up to its directory is gone through to the end, or a fault of the source is told. *)
Theorem C110_ends cd (D : decoder) view inv (E : engine cd) k cfg l s w0 xs z outs w es : decoder_ok cd D view inv -> decoder_lively D ->
  Forall relay_good l -> len (s_data s) < 0x10000000000000000 -> goes cd (past (s_pos s) (s_data s)) es -> (length es < length l)%nat ->
  Forall2 (relay_patient (delays (s_sched s))) es (firstn (length es) l) -> relay cd D E k cfg l s w0 = (xs, z, outs, w) ->
  z = Some (Ok tt) /\ (exists parts, outs = concat parts /\ relays_as l es xs parts) \/ exists c, In (RFail c) (s_sched s) /\ z = Some (Err (UpstreamReadError (IoOther c))).
Proof. exact (fun OK LV => relay_ends cd D view inv OK E k cfg LV l s w0 xs z outs w es). Qed.
Print Assumptions C110_ends.
(** A writer that does not end well met a fault of its sink, or was not awaited long enough. *)
Theorem C110_blamed cd (D : decoder) view inv (E : engine cd) eview k cfg sched l s xs z outs w : decoder_ok cd D view inv ->
  enc_takes cd -> engine_ok cd E eview -> engine_lively cd E eview ->
  Forall relay_good l -> Forall relay_handy l -> len (s_data s) < 0x10000000000000000 -> relay cd D E k cfg l s (zw_new sched) = (xs, z, outs, w) ->
  exists es rest xs1 xs2, xs = xs1 ++ xs2 /\ entries_here cd (past (s_pos s) (s_data s)) es rest /\ Forall2 (relay_blamed k sched) es xs1 /\
    (xs2 = [] \/ exists x, xs2 = [x] /\ relay_gives x = false) /\ (forall u, z = Some (Ok u) -> xs2 = []).
Proof. exact (fun OK => relay_blames cd D view inv OK E k cfg eview sched l s xs z outs w). Qed.
Print Assumptions C110_blamed.
(** Whatever else went wrong: if the new archive is closed and its end is found, it has an entry for each that was copied, under the name that the caller chose, with the content that lies in the stream. *)
Theorem C110_copied cd (D : decoder) view inv (E : engine cd) eview k (D2 : decoder) view2 inv2 cfg sched l s xs z outs w w' :
  decoder_ok cd D view inv -> codec_ok cd -> engine_ok cd E eview -> decoder_ok cd D2 view2 inv2 -> decoder_lively D2 ->
  Forall relay_good l -> len (s_data s) < 0x10000000000000000 -> relay cd D E k cfg l s (zw_new sched) = (xs, z, outs, w) -> zw_close w = (Ok tt, w') ->
  made cd (map settled outs) (w_bytes w) (w_zip64 w') (w_bytes w') /\
  (unambiguous cd cfg (map fst (map settled outs)) (map settled outs) (w_zip64 w') (w_bytes w') ->
   exists f2 es rest, mem_new cfg (w_bytes w') = Ok {| m_data := w_bytes w'; m_file := f2 |} /\ entries_here cd (past (s_pos s) (s_data s)) es rest /\
   (forall u, z = Some (Ok u) -> length xs = length es /\ exists b, rest = le 4 0x02014b50 ++ b) /\
   length (f_entries f2) = relay_place (length xs) xs /\
   forall p t u, nth_error xs p = Some (t, Relayed (Some (Ok u))) ->
   exists y e data body st it, nth_error l p = Some y /\ nth_error es p = Some (t, data) /\ rp_as y t = Some e /\ fed_bytes body = data /\
     nth_error (f_entries f2) (relay_place p xs) = Some st /\ leaves cd false (OpStream false e body true) it /\ as_written (w_bytes w') it st /\ texts_kept it st /\
     forall ns s2, s_data s2 = w_bytes w' -> Forall (fun n => 0 < n) ns -> (delays (s_sched s2) + length data < length ns)%nat ->
      d_read_entry D2 ns f2 (N.of_nat (relay_place p xs)) s2 = Some (Ok data) \/
      exists c, In (RFail c) (s_sched s2) /\ d_read_entry D2 ns f2 (N.of_nat (relay_place p xs)) s2 = Some (Err (UpstreamReadError (IoOther c)))).
Proof. exact (fun OK => relayed_back cd D view inv OK E k cfg eview D2 view2 inv2 sched l s xs z outs w w'). Qed.
Print Assumptions C110_copied.
(** When nothing is in the way, all that the caller wants is copied and the new archive is closed. *)
Theorem C110_done cd (D : decoder) view inv (E : engine cd) eview k cfg sched l s xs z outs w es : decoder_ok cd D view inv -> decoder_lively D ->
  enc_takes cd -> engine_ok cd E eview -> engine_lively cd E eview ->
  Forall relay_good l -> Forall relay_handy l -> len (s_data s) < 0x10000000000000000 -> goes cd (past (s_pos s) (s_data s)) es -> (length es < length l)%nat ->
  Forall2 (relay_patient (delays (s_sched s))) es (firstn (length es) l) -> nofail (s_sched s) -> obliging sched -> Forall (fun x => (waits sched + length (snd x) < k)%nat) es ->
  relay cd D E k cfg l s (zw_new sched) = (xs, z, outs, w) -> xs = relay_ideal es l /\ z = Some (Ok tt) /\ fst (zw_close w) = Ok tt.
Proof. exact (fun OK LV => relay_done cd D view inv OK E k cfg LV eview sched l s xs z outs w es). Qed.
Print Assumptions C110_done.

Definition takes_as (e : zentry) : relay_plan := {| rp_as := fun _ => Some e; rp_buffers := repeat 2 12; rp_patience := 12 |}.
Definition goes_by : relay_plan := {| rp_as := fun _ => None; rp_buffers := []; rp_patience := 12 |}.
Definition plans : list relay_plan := [takes_as entry3; takes_as entry1; goes_by].
Definition slowly : list revent := [RPending; RChunk 7; RChunk 0; RPending].
(** how the entries ended, and the relay, and closing; what is read from the new archive *)
Definition reckon (k : nat) (l : list relay_plan) (s : source) (sched : list wevent) :=
  let '(xs, z, _, w) := relay toy biting (buffered toy) k cfg0 l s (zw_new sched) in
  let '(r, w') := zw_close w in
  (map snd xs, z, r, match fst (file cfg0 (cursor (w_bytes w'))) with
    | Ok f2 => map (fun i => d_read_entry biting (repeat 4 12) f2 (N.of_nat i) (cursor (w_bytes w'))) (seq 0 (length (f_entries f2)))
    | _ => []
    end).
Lemma plans_good : Forall relay_good plans /\ Forall relay_handy plans.
Proof.
  assert (F1 : entry_fine entry1) by (repeat constructor; cbn; discriminate). assert (F3 : entry_fine entry3) by (repeat constructor; cbn; discriminate).
  assert (B : Forall (fun n => 0 < n) (repeat 2 12) /\ fold_right N.add 0 (repeat 2 12) < 0x10000000000000000) by (split; [repeat constructor|vm_compute; reflexivity]). split.
  - constructor; [split; [exact (proj1 B)|]; split; [exact (proj2 B)|]; intros z e H; injection H as <-; exact F3|].
    constructor; [split; [exact (proj1 B)|]; split; [exact (proj2 B)|]; intros z e H; injection H as <-; exact F1|]. constructor; [|constructor]. split; [constructor|]. split; [reflexivity|]. intros z e H. discriminate H.
  - constructor; [intros z e H; injection H as <-; split; [discriminate|exact roomy3]|]. constructor; [intros z e H; injection H as <-; split; [discriminate|exact roomy1]|].
    constructor; [intros z e H; discriminate H|constructor].
Qed.
(** The premises, over a source and a sink that make the caller wait; the entries change name and method on the way, and are read from the new archive. *)
Example C110_case : codec_ok toy /\ decoder_ok toy biting bite_view bite_inv /\ decoder_lively biting /\ engine_ok toy (buffered toy) (fun g => g) /\ engine_lively toy (buffered toy) (fun g => g) /\
  Forall relay_good plans /\ Forall relay_handy plans /\ len sample < 0x10000000000000000 /\ nofail slowly /\ obliging lags /\
  (exists es, goes toy sample es /\ map snd es = [[x68; x69; x21]; [x78; x79]] /\ Forall2 (relay_patient (delays slowly)) es (firstn (length es) plans) /\ Forall (fun x => (waits lags + length (snd x) < 20)%nat) es) /\
  reckon 20 plans (flaky sample slowly) lags = ([Relayed (Some (Ok tt)); Relayed (Some (Ok tt))], Some (Ok tt), Ok tt, [Some (Ok [x68; x69; x21]); Some (Ok [x78; x79])]) /\
  exists xs z outs w w', relay toy biting (buffered toy) 20 cfg0 plans (flaky sample slowly) (zw_new lags) = (xs, z, outs, w) /\ zw_close w = (Ok tt, w') /\
    unambiguous toy cfg0 (map fst (map settled outs)) (map settled outs) (w_zip64 w') (w_bytes w') /\ map (fun p => relay_place p xs) [0; 1; 2]%nat = [0; 1; 2]%nat.
Proof.
  split; [exact toy_ok|]. split; [exact biting_ok|]. split; [exact biting_lively|]. destruct (C101_met toy (proj1 toy_ok)) as [M1 M2]. split; [exact M1|]. split; [exact M2|].
  split; [exact (proj1 plans_good)|]. split; [exact (proj2 plans_good)|]. split; [vm_compute; reflexivity|]. split; [repeat constructor|]. split; [repeat constructor; discriminate|]. split.
  { destruct C68_case as (_ & _ & _ & es & GO & MS). exists es. split; [exact GO|]. split; [exact MS|]. destruct es as [|[z1 d1] [|[z2 d2] [|]]]; try discriminate MS. cbn [map snd] in MS. injection MS as -> ->.
    split; [repeat constructor; cbn; lia|]. repeat constructor; cbn; lia. }
  split; [vm_compute; reflexivity|].
  assert (H : let '(xs, z, outs, w) := relay toy biting (buffered toy) 20 cfg0 plans (flaky sample slowly) (zw_new lags) in let '(r, w') := zw_close w in
    r = Ok tt /\ clear_end (map settled outs) (w_zip64 w') (last_comment (map fst (map settled outs))) (w_bytes w') = true /\ map (fun p => relay_place p xs) [0; 1; 2]%nat = [0; 1; 2]%nat)
    by (vm_compute; repeat split; reflexivity).
  destruct (relay toy biting (buffered toy) 20 cfg0 plans (flaky sample slowly) (zw_new lags)) as [[[xs z] outs] w]. destruct (zw_close w) as [r w'] eqn:C. cbv zeta in H. destruct H as (-> & H2 & H3).
  exists xs, z, outs, w, w'. split; [reflexivity|]. split; [exact C|]. split; [exact (clear_end_ok toy _ _ _ _ H2)|exact H3].
Qed.
(** An entry that is passed by; a fault of the source within an entry and behind it; a stream that was cut within an entry. *)
Example C110_case2 :
  reckon 20 [goes_by; takes_as entry1; goes_by] (flaky sample slowly) lags = ([PassedBy; Relayed (Some (Ok tt))], Some (Ok tt), Ok tt, [Some (Ok [x78; x79])]) /\
  map (fun n => reckon 20 plans (flaky sample (repeat (RChunk 99) n ++ [RFail 4])) lags) [14; 15]%nat =
    [([Relayed (Some (Ok tt)); Torn], Some (Err (UpstreamReadError (IoOther 4))), Ok tt, [Some (Ok [x68; x69; x21])]);
     ([Relayed (Some (Ok tt)); Relayed (Some (Ok tt))], Some (Err (UpstreamReadError (IoOther 4))), Ok tt, [Some (Ok [x68; x69; x21]); Some (Ok [x78; x79])])] /\
  reckon 20 plans (flaky (upto 70 sample) slowly) lags = ([Relayed (Some (Ok tt)); Torn], Some (Err (UpstreamReadError UnexpectedEof)), Ok tt, [Some (Ok [x68; x69; x21])]).
Proof. repeat split; vm_compute; reflexivity. Qed.
(** A fault of the sink while the data go through and while closing; the caller gives up waiting for it. What comes next is copied. *)
Example C110_case3 :
  map (fun n => reckon 20 plans (flaky sample slowly) (repeat (WAccept 99) n ++ [WFail 8])) [5; 6]%nat =
    [([CutOff (Some (Err (UpstreamReadError (IoOther 8)))); Relayed (Some (Ok tt))], Some (Ok tt), Ok tt, [Some (Ok [x78; x79])]);
     ([Relayed (Some (Err (UpstreamReadError (IoOther 8)))); Relayed (Some (Ok tt))], Some (Ok tt), Ok tt, [Some (Ok [x78; x79])])] /\
  reckon 1 plans (flaky sample slowly) (repeat (WAccept 99) 4 ++ [WPending; WPending]) = ([CutOff None; Relayed (Some (Ok tt))], Some (Ok tt), Ok tt, [Some (Ok [x78; x79])]).
Proof. split; vm_compute; reflexivity. Qed.
(** What [done] does not tell: stored data that are cut short are copied as far as they are there, and only the next header is missed; a checksum is not compared. *)
Definition marred : bytes := upto 31 sample ++ [x48] ++ past 32 sample.
Example C110_case4 :
  reckon 20 plans (flaky (upto 33 sample) slowly) lags = ([Relayed (Some (Ok tt))], Some (Err (UpstreamReadError UnexpectedEof)), Ok tt, [Some (Ok [x68; x69])]) /\
  reckon 20 plans (flaky marred slowly) lags = ([Relayed (Some (Ok tt)); Relayed (Some (Ok tt))], Some (Ok tt), Ok tt, [Some (Ok [x48; x69; x21]); Some (Ok [x78; x79])]).
Proof. split; vm_compute; reflexivity. Qed.
