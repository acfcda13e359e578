(** Property theorems: any decoder over sources whose seeks are pending, fail or are refused, and callers that give up. *)
From Verif Require Import Base BaseFacts Crc32 SpecFormat SpecCrc SpecArchive SpecRead SpecWrite SpecEncoder SpecBlame SpecMade SpecExact SpecThrough SpecStream SpecOrdinary ZString Headers ExtraField Entry IO IOFacts
  Reader EntryReader StreamReader Writer StreamPolls EncoderPolls AwaitedWrites
  ReaderPolls SpecReadPolls GiveUp DecoderPolls SpecDecoder DecoderWalk SpecWalk SpecAwake SpecEndure
  Samples WriteSamples DecoderSamples AwakeSamples Properties_Ordinary Properties_Endure Seeks SpecSeeks DecoderSeeks SpecHarsh HarshProofs.
Import Writer SpecReadPolls SpecSeeks.

(** * C108. Whatever is done to one reader over a troublesome source, each entry is read as itself. *)
(** A history of calls that may fail or be given up, whose entry readers are polled in any way and dropped wherever the decoder is. *)
Theorem C108_history cd (D : decoder) view inv f us h : decoder_ok cd D view inv ->
  let '(xs, h') := dh_uses D f us h in s_data (h_src h') = s_data (h_src h) /\ Forall2 (dh_outcome cd f h) us xs.
Proof. intro OK. pose proof (dh_history cd D view inv OK f us h) as H. destruct (dh_uses D f us h) as [xs h']. exact (conj (proj1 (proj1 H)) (proj2 H)). Qed.
Print Assumptions C108_history.
(** After any such history an entry reads as it does on the plain bytes, unless the source is in the way again; nothing is returned only for want of buffers. *)
Theorem C108_afterwards cd (D : decoder) view inv us ns f i n h : decoder_ok cd D view inv -> decoder_lively D -> Forall (fun n => 0 < n) ns ->
  let '(_, h') := dh_uses D f us h in
  match dh_read_entry D ns f i n h' with
  | Some (Finished r) =>
      let y := read_entry cd f i (cursor (s_data (h_src h))) in
      r = y \/ (r = Err (UpstreamReadError UnexpectedEof) /\ y = Err (UpstreamReadError InvalidData)) \/
      (exists c, reports h' c /\ r = Err (UpstreamReadError (IoOther c))) \/
      r = Err (UpstreamReadError InvalidInput) /\ (roomy h -> forall b, y <> Ok b)
  | Some Left => (n < waits h')%nat
  | None => exists e, opened_from f i (s_data (h_src h)) = Ok e /\
      (length ns <= delays (s_sched (h_src h)) + length (fst (decoded cd (en_compression (st_entry e)) (region (s_data (h_src h)) e))))%nat
  end.
Proof. exact (fun OK LV => dh_told cd D view inv OK LV us ns f i n h). Qed.
Print Assumptions C108_afterwards.
(** However the archive was made: over a source that takes the positions, after any history, what its session wrote is read, or the source's fault is told,
    or the caller gave up while the source was not ready. *)
Theorem C108_made cd (D : decoder) view inv cfg xs body z d : codec_ok cd -> decoder_ok cd D view inv -> decoder_lively D ->
  made cd xs body z d -> unambiguous cd cfg (map fst xs) xs z d ->
  exists f, mem_new cfg d = Ok {| m_data := d; m_file := f |} /\
  forall h, s_data (h_src h) = d -> roomy h ->
    (forall n, match fst (fst (h_file cfg n h)) with
       | Finished r => r = Ok f \/ (exists c, reports h c /\ r = Err (UpstreamReadError (IoOther c))) \/ r = Err (UpstreamReadError InvalidInput) /\ f_entries f = []
       | Left => (n < waits h)%nat
       end) /\
    forall us, let '(vs, h') := dh_uses D f us h in
      Forall2 (dh_outcome cd f h) us vs /\
      forall i no64 o data ns n, nth_error (succeeded false xs) (N.to_nat i) = Some (no64, o) -> holds cd o data -> (forall it, leaves cd no64 o it -> straight it) ->
        Forall (fun n => 0 < n) ns -> (delays (s_sched (h_src h)) + length data < length ns)%nat ->
        dh_read_entry D ns f i n h' = Some (Finished (Ok data)) \/
        (exists c, reports h' c /\ dh_read_entry D ns f i n h' = Some (Finished (Err (UpstreamReadError (IoOther c))))) \/
        (n < waits h')%nat /\ dh_read_entry D ns f i n h' = Some Left.
Proof. exact (fun CK OK LV => made_harsh cd D view inv OK LV cfg xs body z d CK). Qed.
Print Assumptions C108_made.

(** A history over the archive of C106: one call is given up while seeking, one fails while seeking, one entry is dropped after the first of its two bytes, one is
    polled through a fault to its end, and one does not exist; then the second entry is asked for in vain and at last read. *)
Definition unruly (d : bytes) : harsh :=
  {| h_src := {| s_data := d; s_pos := 3; s_sched := repeat (RChunk 99) 9 ++ [RPending; RFail 6; RChunk 0] |};
     h_seeks := [KPending 3; KFail 4 0; KDone; KDone; KDone; KDone; KPending 1]; h_max := 0x7fffffffffffffff |}.
Definition tries : list (N * nat * list read_call) :=
  [(0, O, [PollRead 9]); (1, 3%nat, [PollRead 9]); (0, 3%nat, [PollRead 9]); (0, 3%nat, repeat (PollRead 9) 6); (7, O, [])].
Example C108_case : codec_ok toy /\ decoder_ok toy biting bite_view bite_inv /\ decoder_lively biting /\
  exists xs body z d, made toy xs body z d /\ unambiguous toy cfg0 (map fst xs) xs z d /\ len (succeeded false xs) = 2 /\
    (delays (s_sched (h_src (unruly d))) + 2 < 12)%nat /\ roomy (unruly d) /\ waits (unruly d) = 3%nat /\
    match fst (file cfg0 (cursor d)) with
    | Ok f =>
      let '(xs, h') := dh_uses biting f tries (unruly d) in
      map (fun x => match fst x with Finished (Ok _) => None | Finished (Err e) => Some (Some e) | _ => Some None end) xs =
        [Some None; Some (Some (UpstreamReadError (IoOther 4))); None; None; Some (Some EntryIndexOutOfBounds)] /\
      map (fun x => map snd (snd x)) xs = [[]; []; [RGot [x05]]; [RGot [x05]; RPend; RErr (IoOther 6); RGot [x06]; RGot []; RGot []]; []] /\
      map (fun n => dh_read_entry biting (repeat 4 12) f 1 n h') [O; 1%nat] = [Some Left; Some (Finished (Ok [x09]))]
    | _ => False
    end.
Proof.
  split; [exact toy_ok|]. split; [exact biting_ok|]. split; [exact biting_lively|].
  assert (H : let '(xs, w) := run_ops toy twice (zw_new []) in
    let '(r, w') := zw_close w in
    let d := w_bytes w' in
    r = Ok tt /\ clear_end xs (w_zip64 w') (last_comment (map fst xs)) d = true /\ xs = map (fun o => (o, Ok tt)) twice /\ (len d <? 1000) = true /\
    match fst (file cfg0 (cursor d)) with
    | Ok f =>
      let '(xs, h') := dh_uses biting f tries (unruly d) in
      map (fun x => match fst x with Finished (Ok _) => None | Finished (Err e) => Some (Some e) | _ => Some None end) xs =
        [Some None; Some (Some (UpstreamReadError (IoOther 4))); None; None; Some (Some EntryIndexOutOfBounds)] /\
      map (fun x => map snd (snd x)) xs = [[]; []; [RGot [x05]]; [RGot [x05]; RPend; RErr (IoOther 6); RGot [x06]; RGot []; RGot []]; []] /\
      map (fun n => dh_read_entry biting (repeat 4 12) f 1 n h') [O; 1%nat] = [Some Left; Some (Finished (Ok [x09]))]
    | _ => False
    end)
    by (vm_compute; repeat split; reflexivity).
  destruct (run_ops toy twice (zw_new [])) as [xs w] eqn:R. destruct (zw_close w) as [r w'] eqn:C. cbv zeta in H. destruct H as (-> & H2 & -> & L & H3). apply N.ltb_lt in L.
  eexists _, (w_bytes w), (w_zip64 w'), (w_bytes w').
  split; [refine (by_calls toy [] twice _ w w' _ R C); repeat constructor; cbn; discriminate|].
  split; [exact (clear_end_ok toy _ _ _ _ H2)|]. split; [reflexivity|]. split; [apply Nat.ltb_lt; reflexivity|].
  split; [|split; [reflexivity|exact H3]]. unfold roomy, unruly. cbn [h_src s_data h_max]. unfold u64_max. lia.
Qed.
