(** Property theorems: several streams copied into one archive. *)
From Verif Require Import Base BaseFacts Crc32 SpecFormat SpecCrc SpecArchive SpecRead SpecWrite SpecEncoder SpecBlame SpecMade SpecLively SpecExact SpecThrough SpecStream SpecOrdinary SpecSalvage SpecRemains ZString Headers ExtraField Entry IO IOFacts
  Reader EntryReader StreamReader Writer StreamPolls EncoderPolls AwaitedWrites
  ReaderPolls SpecReadPolls GiveUp DecoderPolls SpecDecoder DecoderWalk SpecWalk SpecAwake SpecEndure
  Samples WriteSamples DecoderSamples AwakeSamples EncoderSamples Properties_Lively Properties_Ordinary Properties_Endure Properties_Through Properties_Remains Piped Properties_Piped Relay SpecRelay Properties_Relay SpecRescue Properties_Rescue Merge SpecMerge MergeProofs.
Import Writer SpecReadPolls Piped.

(** * C113. Several streams copied one after the other into one archive. *)
(** Whatever went wrong with any of them: if the new archive is closed and its end is found, it has an entry for each that was copied of any stream and no other, in the order of the streams, under the name that the caller chose,
    with the content that lies in that stream. *)
Theorem C113_copied cd (D : decoder) view inv (E : engine cd) eview k (D2 : decoder) view2 inv2 cfg sched js rs outs w w' : decoder_ok cd D view inv ->
  codec_ok cd -> engine_ok cd E eview -> decoder_ok cd D2 view2 inv2 -> decoder_lively D2 ->
  merge_good js -> merge cd D E k cfg js (zw_new sched) = (rs, outs, w) -> zw_close w = (Ok tt, w') ->
  made cd (map settled outs) (w_bytes w) (w_zip64 w') (w_bytes w') /\ length rs = length js /\
  (unambiguous cd cfg (map fst (map settled outs)) (map settled outs) (w_zip64 w') (w_bytes w') ->
   exists f2, mem_new cfg (w_bytes w') = Ok {| m_data := w_bytes w'; m_file := f2 |} /\ length (f_entries f2) = merge_count rs /\
   (forall j, (j < merge_count rs)%nat -> exists i xs z p t, nth_error rs i = Some (xs, z) /\ nth_error xs p = Some (t, Relayed (Some (Ok tt))) /\ merge_place rs i p = j) /\
   forall i l s xs z, nth_error js i = Some (l, s) -> nth_error rs i = Some (xs, z) ->
   exists es rest, entries_here cd (past (s_pos s) (s_data s)) es rest /\ (forall u, z = Some (Ok u) -> length xs = length es /\ exists b, rest = le 4 0x02014b50 ++ b) /\
   forall p t u, nth_error xs p = Some (t, Relayed (Some (Ok u))) ->
   exists y e data body st it, nth_error l p = Some y /\ nth_error es p = Some (t, data) /\ rp_as y t = Some e /\ fed_bytes body = data /\
     nth_error (f_entries f2) (merge_place rs i p) = Some st /\ leaves cd false (OpStream false e body true) it /\ as_written (w_bytes w') it st /\ texts_kept it st /\
     forall ns s2, s_data s2 = w_bytes w' -> Forall (fun n => 0 < n) ns -> (delays (s_sched s2) + length data < length ns)%nat ->
      d_read_entry D2 ns f2 (N.of_nat (merge_place rs i p)) s2 = Some (Ok data) \/
      exists c, In (RFail c) (s_sched s2) /\ d_read_entry D2 ns f2 (N.of_nat (merge_place rs i p)) s2 = Some (Err (UpstreamReadError (IoOther c)))).
Proof. exact (fun OK => merged_back cd D view inv OK E k cfg eview D2 view2 inv2 sched js rs outs w w'). Qed.
Print Assumptions C113_copied.
(** When nothing is in the way, each stream is gone through to its end, all that the caller wants is copied, and the new archive is closed. *)
Theorem C113_done cd (D : decoder) view inv (E : engine cd) eview k cfg sched js ess rs outs w : decoder_ok cd D view inv -> decoder_lively D ->
  enc_takes cd -> engine_ok cd E eview -> engine_lively cd E eview ->
  merge_good js -> Forall (fun j => Forall relay_handy (fst j)) js -> Forall2 (merge_patient cd k sched) js ess -> obliging sched -> merge cd D E k cfg js (zw_new sched) = (rs, outs, w) ->
  Forall2 (fun r x => r = (relay_ideal (snd x) (fst (fst x)), Some (Ok tt))) rs (List.combine js ess) /\ fst (zw_close w) = Ok tt.
Proof. exact (fun OK LV => merge_done cd D view inv OK E k cfg LV eview sched js ess rs outs w). Qed.
Print Assumptions C113_done.
(** Streams that hold these entries and then anything, such as archives that were cut short (C111): all of them that the caller wants are copied. *)
Theorem C113_saved cd (D : decoder) view inv (E : engine cd) eview k cfg sched js ess rs outs w : decoder_ok cd D view inv -> decoder_lively D ->
  enc_takes cd -> engine_ok cd E eview -> engine_lively cd E eview ->
  merge_good js -> Forall (fun j => Forall relay_handy (fst j)) js -> Forall (fun j => Forall (relay_awaits k sched) (fst j)) js -> Forall2 (merge_begins cd) js ess -> obliging sched ->
  merge cd D E k cfg js (zw_new sched) = (rs, outs, w) ->
  Forall2 (fun r x => exists xs2, fst r = relay_ideal (snd x) (fst (fst x)) ++ xs2) rs (List.combine js ess) /\ fst (zw_close w) = Ok tt.
Proof. exact (fun OK LV => merge_saves cd D view inv OK E k cfg LV eview sched js ess rs outs w). Qed.
Print Assumptions C113_saved.
(** The same archive begun again, however each time ended: what was copied any time is in the new archive, as it lies in the old one. *)
Theorem C113_again cd (D : decoder) view inv (E : engine cd) eview k (D2 : decoder) view2 inv2 cfg sched a all js rs outs w w' :
  decoder_ok cd D view inv -> codec_ok cd -> engine_ok cd E eview -> decoder_ok cd D2 view2 inv2 -> decoder_lively D2 ->
  merge_good js -> Forall (fun j => s_data (snd j) = a /\ s_pos (snd j) = 0) js -> goes cd a all -> merge cd D E k cfg js (zw_new sched) = (rs, outs, w) -> zw_close w = (Ok tt, w') ->
  unambiguous cd cfg (map fst (map settled outs)) (map settled outs) (w_zip64 w') (w_bytes w') ->
  exists f2, mem_new cfg (w_bytes w') = Ok {| m_data := w_bytes w'; m_file := f2 |} /\ length (f_entries f2) = merge_count rs /\
  forall i xs z p t u, nth_error rs i = Some (xs, z) -> nth_error xs p = Some (t, Relayed (Some (Ok u))) ->
  exists data, nth_error all p = Some (t, data) /\
    forall ns s2, s_data s2 = w_bytes w' -> Forall (fun n => 0 < n) ns -> (delays (s_sched s2) + length data < length ns)%nat ->
      d_read_entry D2 ns f2 (N.of_nat (merge_place rs i p)) s2 = Some (Ok data) \/
      exists c, In (RFail c) (s_sched s2) /\ d_read_entry D2 ns f2 (N.of_nat (merge_place rs i p)) s2 = Some (Err (UpstreamReadError (IoOther c))).
Proof. exact (merged_again cd D view inv E k cfg eview D2 view2 inv2 sched a all js rs outs w w'). Qed.
Print Assumptions C113_again.

(** how the entries of each stream ended, and the streams, and closing; what is read from the new archive *)
Definition tally (js : list (list relay_plan * source)) (sched : list wevent) :=
  let '(rs, _, w) := merge toy biting (buffered toy) 20 cfg0 js (zw_new sched) in
  let '(r, w') := zw_close w in
  (map (fun x => (map snd (fst x), snd x)) rs, r, match fst (file cfg0 (cursor (w_bytes w'))) with
    | Ok f2 => map (fun i => d_read_entry biting (repeat 4 12) f2 (N.of_nat i) (cursor (w_bytes w'))) (seq 0 (length (f_entries f2)))
    | _ => []
    end).
(** the first time the source fails within the second entry; the second time the first entry is passed by *)
Definition retry : list (list relay_plan * source) :=
  [(plans, flaky sample (repeat (RChunk 99) 14 ++ [RFail 4])); ([goes_by; takes_as entry1; goes_by], flaky sample slowly)].
Example C113_case : codec_ok toy /\ decoder_ok toy biting bite_view bite_inv /\ decoder_lively biting /\ engine_ok toy (buffered toy) (fun g => g) /\
  merge_good retry /\ Forall (fun j => s_data (snd j) = sample /\ s_pos (snd j) = 0) retry /\ (exists all, goes toy sample all /\ map snd all = [data1; [x78; x79]]) /\
  tally retry lags = ([([Relayed (Some (Ok tt)); Torn], Some (Err (UpstreamReadError (IoOther 4)))); ([PassedBy; Relayed (Some (Ok tt))], Some (Ok tt))], Ok tt, [Some (Ok data1); Some (Ok [x78; x79])]) /\
  exists rs outs w w', merge toy biting (buffered toy) 20 cfg0 retry (zw_new lags) = (rs, outs, w) /\ zw_close w = (Ok tt, w') /\
    unambiguous toy cfg0 (map fst (map settled outs)) (map settled outs) (w_zip64 w') (w_bytes w') /\ merge_count rs = 2%nat /\ (merge_place rs 0 0, merge_place rs 1 1) = (0, 1)%nat.
Proof.
  assert (GB : relay_good goes_by) by (split; [constructor|]; split; [reflexivity|]; intros z e H; discriminate H).
  destruct plans_good as [PG _]. assert (G1 : relay_good (takes_as entry1)) by (apply Forall_cons_iff in PG as [_ PG]; apply Forall_cons_iff in PG as [PG _]; exact PG).
  split; [exact toy_ok|]. split; [exact biting_ok|]. split; [exact biting_lively|]. destruct (C101_met toy (proj1 toy_ok)) as [M1 M2]. split; [exact M1|].
  split; [constructor; [split; [exact PG|vm_compute; reflexivity]|]; constructor; [split; [repeat (constructor; [assumption|]); constructor|vm_compute; reflexivity]|constructor]|].
  split; [repeat constructor|]. split; [destruct C68_case as (_ & _ & _ & X); exact X|]. split; [vm_compute; reflexivity|].
  assert (H : let '(rs, outs, w) := merge toy biting (buffered toy) 20 cfg0 retry (zw_new lags) in let '(r, w') := zw_close w in
    r = Ok tt /\ clear_end (map settled outs) (w_zip64 w') (last_comment (map fst (map settled outs))) (w_bytes w') = true /\ merge_count rs = 2%nat /\ (merge_place rs 0 0, merge_place rs 1 1) = (0, 1)%nat)
    by (vm_compute; repeat split; reflexivity).
  destruct (merge toy biting (buffered toy) 20 cfg0 retry (zw_new lags)) as [[rs outs] w]. destruct (zw_close w) as [r w'] eqn:C. cbv zeta in H. destruct H as (-> & H2 & H3).
  exists rs, outs, w, w'. split; [reflexivity|]. split; [exact C|]. split; [exact (clear_end_ok toy _ _ _ _ H2)|exact H3].
Qed.
(** what [C113_done] asks for: an archive twice, with all that it holds *)
Definition both : list (list relay_plan * source) := [(plans, flaky sample slowly); (plans, flaky sample [])].
Example C113_case2 : engine_lively toy (buffered toy) (fun g => g) /\ merge_good both /\ Forall (fun j => Forall relay_handy (fst j)) both /\ obliging lags /\
  (exists es, Forall2 (merge_patient toy 20 lags) both [es; es] /\ map snd es = [data1; [x78; x79]]) /\
  tally both lags = (repeat ([Relayed (Some (Ok tt)); Relayed (Some (Ok tt))], Some (Ok tt)) 2, Ok tt, [Some (Ok data1); Some (Ok [x78; x79]); Some (Ok data1); Some (Ok [x78; x79])]).
Proof.
  destruct plans_good as [PG PH]. destruct (C101_met toy (proj1 toy_ok)) as [M1 M2]. split; [exact M2|].
  split; [repeat (constructor; [split; [exact PG|vm_compute; reflexivity]|]); constructor|]. split; [repeat (constructor; [exact PH|]); constructor|]. split; [repeat constructor; discriminate|]. split; [|vm_compute; reflexivity].
  destruct C68_case as (_ & _ & _ & es & GO & MS). exists es. split; [|exact MS]. destruct es as [|[z1 d1] [|[z2 d2] [|]]]; try discriminate MS. cbn [map snd] in MS. injection MS as -> ->.
  constructor; [|constructor; [|constructor]]; (split; [exact GO|]; split; [cbn [length plans fst]; lia|]; split; [repeat constructor; cbn; lia|]; split; [repeat constructor|]; repeat constructor; cbn; lia).
Qed.
(** what [C113_saved] asks for: two copies of an archive, one cut within its second entry, the other in the signature of its directory; the second entry comes from the other *)
Definition copies : list (list relay_plan * source) := [(plans, flaky (upto 70 sample) slowly); ([goes_by; takes_as entry1; goes_by], flaky (upto 90 sample) slowly)].
Example C113_case3 : merge_good copies /\ Forall (fun j => Forall relay_handy (fst j)) copies /\ Forall (fun j => Forall (relay_awaits 60 lags) (fst j)) copies /\
  (exists x, Forall2 (merge_begins toy) copies [[x]; [x]] /\ snd x = data1) /\
  tally copies lags = ([([Relayed (Some (Ok tt)); Torn], ended_early); ([PassedBy; Relayed (Some (Ok tt))], ended_early)], Ok tt, [Some (Ok data1); Some (Ok [x78; x79])]).
Proof.
  assert (GB : relay_good goes_by) by (split; [constructor|]; split; [reflexivity|]; intros z e H; discriminate H).
  assert (HB : relay_handy goes_by) by (intros z e H; discriminate H).
  destruct plans_good as [PG PH]. assert (G1 : relay_good (takes_as entry1)) by (apply Forall_cons_iff in PG as [_ PG]; apply Forall_cons_iff in PG as [PG _]; exact PG).
  assert (H1 : relay_handy (takes_as entry1)) by (apply Forall_cons_iff in PH as [_ PH]; apply Forall_cons_iff in PH as [PH _]; exact PH).
  split; [constructor; [split; [exact PG|vm_compute; reflexivity]|]; constructor; [split; [repeat (constructor; [assumption|]); constructor|vm_compute; reflexivity]|constructor]|].
  split; [constructor; [exact PH|]; constructor; [repeat (constructor; [assumption|]); constructor|constructor]|].
  split; [repeat (constructor; [cbn [fst]; repeat (constructor; [apply Nat.ltb_lt; vm_compute; reflexivity|]); constructor|]); constructor|]. split; [|vm_compute; reflexivity].
  destruct C107_recovered_case as (x & EH & SX & NE & LL & _). exists x. split; [|exact SX].
  assert (B : forall n, len sample <= len (past 34 sample) + n -> entries_here toy (upto n sample) [x] (upto (n + len (past 34 sample) - len sample) (past 34 sample))) by (intros n L; exact (RemainsProofs.here_upto toy toy_local _ _ _ EH NE n L)).
  constructor; [|constructor; [|constructor]].
  - split; [eexists; exact (B 70 LL)|]. split; [cbn [length plans fst]; lia|]. split; [|repeat constructor]. constructor; [|constructor]. unfold relay_patient. rewrite SX. cbn [takes_as rp_as rp_buffers rp_patience]. split; apply Nat.ltb_lt; vm_compute; reflexivity.
  - split; [eexists; exact (B 90 ltac:(vm_compute; discriminate))|]. split; [cbn [length fst]; lia|]. split; [|repeat constructor]. constructor; [|constructor]. unfold relay_patient. rewrite SX. cbn [goes_by rp_as rp_patience]. split; [exact Logic.I|apply Nat.ltb_lt; vm_compute; reflexivity].
Qed.
