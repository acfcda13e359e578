(** Property theorems: entries carried from one archive into another without being held, around any decoder and any encoder, over a troublesome source and sink. *)
From Verif Require Import Base BaseFacts Crc32 SpecFormat SpecCrc SpecArchive SpecRead SpecWrite SpecEncoder SpecBlame SpecMade SpecLively SpecExact SpecThrough SpecStream SpecOrdinary ZString Headers ExtraField Entry IO IOFacts
  Reader EntryReader StreamReader Writer StreamPolls EncoderPolls AwaitedWrites
  ReaderPolls SpecReadPolls GiveUp DecoderPolls SpecDecoder DecoderWalk SpecWalk SpecAwake SpecEndure
  Samples WriteSamples DecoderSamples AwakeSamples EncoderSamples Properties_Lively Properties_Ordinary Properties_Endure Seeks SpecSeeks DecoderSeeks SpecHarsh Properties_Harsh Piped SpecPiped PipedProofs.
Import Writer SpecReadPolls SpecSeeks Piped.

(** * C109. What is carried from one archive into another arrives, and what does not says why. *)
(** Each errand's end is told for its cause, and to the writer the session is an ordinary one of awaited calls. *)
Theorem C109_told cd (D : decoder) view inv (E : engine cd) k f l h xs outs h' w w0 : decoder_ok cd D view inv -> decoder_lively D ->
  Forall errand_good l -> measured cd f (s_data (h_src h)) -> errands cd D E k f l h w0 = (xs, outs, h', w) ->
  s_data (h_src h') = s_data (h_src h) /\ Forall2 (errand_told cd f h) l xs /\ awaited_ops cd E k (map fst outs) w0 = (outs, w).
Proof. exact (fun OK LV => all_told cd D view inv OK LV E k f l h xs outs h' w w0). Qed.
Print Assumptions C109_told.
(** A writer that does not end well met a fault of its sink, or was not awaited long enough. *)
Theorem C109_blamed cd (D : decoder) view inv (E : engine cd) eview k sched f l h xs outs h' w : decoder_ok cd D view inv -> decoder_lively D ->
  enc_takes cd -> engine_ok cd E eview -> engine_lively cd E eview ->
  Forall errand_handy l -> measured cd f (s_data (h_src h)) -> errands cd D E k f l h (zw_new sched) = (xs, outs, h', w) ->
  Forall2 (writer_blamed cd k sched f (s_data (h_src h))) l xs.
Proof. exact (fun OK LV => writers_blamed cd D view inv OK LV E k eview sched f l h xs outs h' w). Qed.
Print Assumptions C109_blamed.
(** Whatever else went wrong: if the new archive is closed and its end is found, it has an entry for each errand that left one, and what was carried is read there as in the old archive. *)
Theorem C109_copied cd (D : decoder) view inv (E : engine cd) eview k (D2 : decoder) view2 inv2 cfg sched f l h xs outs h' w w' :
  decoder_ok cd D view inv -> decoder_lively D -> codec_ok cd -> engine_ok cd E eview -> decoder_ok cd D2 view2 inv2 -> decoder_lively D2 ->
  Forall errand_good l -> measured cd f (s_data (h_src h)) -> errands cd D E k f l h (zw_new sched) = (xs, outs, h', w) -> zw_close w = (Ok tt, w') ->
  made cd (map settled outs) (w_bytes w) (w_zip64 w') (w_bytes w') /\
  (unambiguous cd cfg (map fst (map settled outs)) (map settled outs) (w_zip64 w') (w_bytes w') ->
   exists f2, mem_new cfg (w_bytes w') = Ok {| m_data := w_bytes w'; m_file := f2 |} /\ length (f_entries f2) = place (length l) l xs /\
   forall p j, nth_error l p = Some (Carry j) -> nth_error xs p = Some (CarryEnds Carried) ->
   exists data body no64 st it, read_entry cd f (ca_index j) (cursor (s_data (h_src h))) = Ok data /\ fed_bytes body = data /\
     nth_error (f_entries f2) (place p l xs) = Some st /\ leaves cd no64 (OpStream false (ca_entry j) body true) it /\ as_written (w_bytes w') it st /\ texts_kept it st /\
     (no64 = false \/ (forall it, leaves cd no64 (OpStream false (ca_entry j) body true) it -> straight it) ->
      forall ns s, s_data s = w_bytes w' -> Forall (fun n => 0 < n) ns -> (delays (s_sched s) + length data < length ns)%nat ->
      d_read_entry D2 ns f2 (N.of_nat (place p l xs)) s = Some (Ok data) \/
      exists c, In (RFail c) (s_sched s) /\ d_read_entry D2 ns f2 (N.of_nat (place p l xs)) s = Some (Err (UpstreamReadError (IoOther c))))).
Proof. exact (fun OK LV => carried_back cd D view inv OK LV E k eview D2 view2 inv2 cfg sched f l h xs outs h' w w'). Qed.
Print Assumptions C109_copied.
(** When nothing is in the way, all is carried and the new archive is closed. *)
Theorem C109_done cd (D : decoder) view inv (E : engine cd) eview k sched f l h xs outs h' w : decoder_ok cd D view inv -> decoder_lively D ->
  enc_takes cd -> engine_ok cd E eview -> engine_lively cd E eview ->
  Forall errand_handy l -> measured cd f (s_data (h_src h)) -> obliging sched -> (forall c, ~ reports h c) -> roomy h -> Forall (unhindered cd k sched f h) l ->
  errands cd D E k f l h (zw_new sched) = (xs, outs, h', w) -> xs = map well_ended l /\ fst (zw_close w) = Ok tt.
Proof. exact (fun OK LV => all_carried cd D view inv OK LV E k eview sched f l h xs outs h' w). Qed.
Print Assumptions C109_done.

Lemma toy_shorter : forall n l, (length l <= n)%nat -> (length (fst (toy_dec l)) <= length l)%nat.
Proof.
  induction n as [|n IH]; intros l L; [destruct l; [reflexivity|cbn in L; lia]|].
  destruct l as [|[] [|b r]]; cbn [toy_dec fst length] in *; try lia.
  specialize (IH r ltac:(lia)). destruct (toy_dec r) as [out fin]. cbn [fst length] in *. lia.
Qed.
Lemma toy_measured f d : len d < 0x10000000000000000 -> measured toy f d.
Proof.
  intros L i e _. set (b := region d e). assert (LB : (length b <= length d)%nat) by (unfold b, region; rewrite firstn_length, skipn_length; lia).
  assert (LE : (length (fst (decoded toy (en_compression (st_entry e)) b)) <= length b)%nat).
  { pose proof (toy_shorter _ b (le_n _)) as H. destruct (en_compression (st_entry e)); cbn [decoded toy dec] in *; [reflexivity|..]; destruct (toy_dec b); exact H. }
  unfold len in *. lia.
Qed.

(** The archive of C106 over the source of C108: one errand is given up while seeking, one fails while seeking, one entry arrives, the next time it meets a fault,
    another arrives under another name and method, one does not exist; in between the writer is called. *)
Definition pair_made : bytes := w_bytes (snd (zw_close (snd (run_ops toy twice (zw_new []))))).
Definition parcel (i : N) (n : nat) (e : zentry) : Piped.errand := Carry {| ca_index := i; ca_patience := n; ca_buffers := repeat 4 12; ca_entry := e |}.
Definition rounds : list Piped.errand :=
  [parcel 0 0 entry3; parcel 1 3 entry3; parcel 0 3 entry3; Call (OpWhole entry1 [x07; x07]); parcel 0 3 entry3; parcel 1 3 entry1; parcel 7 3 entry1; Call (OpComment [x68])].
Definition lags : list wevent := repeat (WAccept 99) 3 ++ [WPending; WAccept 1].
Lemma rounds_handy : Forall errand_handy rounds.
Proof.
  assert (F1 : entry_fine entry1) by (repeat constructor; cbn; discriminate). assert (F3 : entry_fine entry3) by (repeat constructor; cbn; discriminate).
  assert (B : Forall (fun n => 0 < n) (repeat 4 12)) by repeat constructor.
  repeat (constructor; [first [split; [first [exact F1|exact F3]|]; split; [discriminate|]; split; [first [exact roomy1|exact roomy3]|exact B]
    | split; [discriminate|]; split; [repeat constructor; cbn; discriminate|]; split; [first [discriminate|exact (fun x => x)]|first [exact roomy1|exact Logic.I]]]|]). constructor.
Qed.
Example C109_case : codec_ok toy /\ decoder_ok toy biting bite_view bite_inv /\ decoder_lively biting /\ engine_ok toy (buffered toy) (fun g => g) /\ engine_lively toy (buffered toy) (fun g => g) /\
  Forall errand_handy rounds /\ Forall errand_good rounds /\ (forall f, measured toy f pair_made) /\
  exists f xs outs h' w w' f2, fst (file cfg0 (cursor pair_made)) = Ok f /\
    errands toy biting (buffered toy) 20 f rounds (unruly pair_made) (zw_new lags) = (xs, outs, h', w) /\ zw_close w = (Ok tt, w') /\
    unambiguous toy cfg0 (map fst (map settled outs)) (map settled outs) (w_zip64 w') (w_bytes w') /\
    xs = [CarryEnds (OpeningSaid Left); CarryEnds (OpeningSaid (Finished (Err (UpstreamReadError (IoOther 4))))); CarryEnds Carried; CallEnds (Some (Ok tt));
          CarryEnds (ReaderSaid (Some (Err (UpstreamReadError (IoOther 6))))); CarryEnds Carried; CarryEnds (OpeningSaid (Finished (Err EntryIndexOutOfBounds))); CallEnds (Some (Ok tt))] /\
    map (fun p => place p rounds xs) [2; 3; 5; 8]%nat = [0; 1; 2; 3]%nat /\
    fst (file cfg0 (cursor (w_bytes w'))) = Ok f2 /\
    map (fun i => d_read_entry biting (repeat 4 12) f2 i (cursor (w_bytes w'))) [0; 1; 2; 3] = [Some (Ok [x05; x06]); Some (Ok [x07; x07]); Some (Ok [x09]); Some (Err EntryIndexOutOfBounds)].
Proof.
  split; [exact toy_ok|]. split; [exact biting_ok|]. split; [exact biting_lively|]. destruct (C101_met toy (proj1 toy_ok)) as [M1 M2]. split; [exact M1|]. split; [exact M2|].
  split; [exact rounds_handy|]. split; [eapply Forall_impl; [|exact rounds_handy]; exact handy_good|]. split; [intro f; apply toy_measured; vm_compute; reflexivity|].
  assert (H : match fst (file cfg0 (cursor pair_made)) with
    | Ok f => let '(xs, outs, h', w) := errands toy biting (buffered toy) 20 f rounds (unruly pair_made) (zw_new lags) in
      let '(r, w') := zw_close w in
      r = Ok tt /\ clear_end (map settled outs) (w_zip64 w') (last_comment (map fst (map settled outs))) (w_bytes w') = true /\
      xs = [CarryEnds (OpeningSaid Left); CarryEnds (OpeningSaid (Finished (Err (UpstreamReadError (IoOther 4))))); CarryEnds Carried; CallEnds (Some (Ok tt));
          CarryEnds (ReaderSaid (Some (Err (UpstreamReadError (IoOther 6))))); CarryEnds Carried; CarryEnds (OpeningSaid (Finished (Err EntryIndexOutOfBounds))); CallEnds (Some (Ok tt))] /\
      map (fun p => place p rounds xs) [2; 3; 5; 8]%nat = [0; 1; 2; 3]%nat /\
      match fst (file cfg0 (cursor (w_bytes w'))) with
      | Ok f2 => map (fun i => d_read_entry biting (repeat 4 12) f2 i (cursor (w_bytes w'))) [0; 1; 2; 3] = [Some (Ok [x05; x06]); Some (Ok [x07; x07]); Some (Ok [x09]); Some (Err EntryIndexOutOfBounds)]
      | _ => False
      end
    | _ => False
    end) by (vm_compute; repeat split; reflexivity).
  destruct (fst (file cfg0 (cursor pair_made))) as [f|x|x]; [|destruct H..]. exists f.
  destruct (errands toy biting (buffered toy) 20 f rounds (unruly pair_made) (zw_new lags)) as [[[xs outs] h'] w]. destruct (zw_close w) as [r w'] eqn:C. cbv zeta in H. destruct H as (-> & H2 & H3 & H4 & H5).
  destruct (fst (file cfg0 (cursor (w_bytes w')))) as [f2|x|x] eqn:F2; [|destruct H5..]. exists xs, outs, h', w, w', f2.
  split; [reflexivity|]. split; [reflexivity|]. split; [exact C|]. split; [exact (clear_end_ok toy _ _ _ _ H2)|]. split; [exact H3|]. split; [exact H4|]. split; [exact F2|exact H5].
Qed.
(** When nothing is in the way although source and sink make the caller wait: the premises of [C109_done]. *)
Definition slow (d : bytes) : harsh :=
  {| h_src := {| s_data := d; s_pos := 3; s_sched := [RPending; RChunk 1; RPending; RChunk 99; RPending; RChunk 1; RPending; RChunk 3] |};
     h_seeks := [KPending 3; KDone; KPending 0; KPending 9]; h_max := 0x7fffffffffffffff |}.
Definition plain_rounds : list Piped.errand := [parcel 1 7 entry3; Call (OpStream false entry3 [SWriteAll [x09; x08]; SFlush] true); parcel 0 7 entry1; Call (OpComment [x68])].
Example C109_case2 : Forall errand_handy plain_rounds /\ obliging lags /\ (forall c, ~ reports (slow pair_made) c) /\ roomy (slow pair_made) /\
  exists f, fst (file cfg0 (cursor pair_made)) = Ok f /\ Forall (unhindered toy 20 lags f (slow pair_made)) plain_rounds /\
    fst (fst (fst (errands toy biting (buffered toy) 20 f plain_rounds (slow pair_made) (zw_new lags)))) = map well_ended plain_rounds.
Proof.
  split.
  { assert (F1 : entry_fine entry1) by (repeat constructor; cbn; discriminate). assert (F3 : entry_fine entry3) by (repeat constructor; cbn; discriminate).
    assert (B : Forall (fun n => 0 < n) (repeat 4 12)) by repeat constructor.
    repeat (constructor; [first [split; [first [exact F1|exact F3]|]; split; [discriminate|]; split; [first [exact roomy1|exact roomy3]|exact B]
      | split; [discriminate|]; split; [repeat constructor; cbn; discriminate|]; split; [first [discriminate|exact (fun x => x)]|first [exact roomy3|exact Logic.I]]]|]). constructor. }
  split; [repeat constructor; discriminate|]. split; [intros c [H|(p & H)]; cbn in H; intuition discriminate|]. split; [split; vm_compute; discriminate|].
  assert (H : match fst (file cfg0 (cursor pair_made)) with
    | Ok f => read_entry toy f 0 (cursor pair_made) = Ok [x05; x06] /\ read_entry toy f 1 (cursor pair_made) = Ok [x09] /\
        fst (fst (fst (errands toy biting (buffered toy) 20 f plain_rounds (slow pair_made) (zw_new lags)))) = map well_ended plain_rounds
    | _ => False end) by (vm_compute; repeat split; reflexivity).
  destruct (fst (file cfg0 (cursor pair_made))) as [f|x|x]; [|destruct H..]. exists f. destruct H as (H0 & H1 & H2). split; [reflexivity|]. split; [|exact H2].
  constructor; [split; [exists [x09]; split; [exact H1|split; cbn; lia]|cbn; lia]|]. constructor; [split; [repeat constructor; cbn; lia|cbn; lia]|].
  constructor; [split; [exists [x05; x06]; split; [exact H0|split; cbn; lia]|cbn; lia]|]. constructor; [exact Logic.I|constructor].
Qed.
(** A byte of the first entry was changed behind the reader's back: it is not closed, and the new archive has no entry for it; a sink that fails, and one that is not awaited long enough. *)
Definition tampered : bytes := map (fun b => if Byte.eqb b x06 then x07 else b) (firstn 70 pair_made) ++ skipn 70 pair_made.
Example C109_case3 : match fst (file cfg0 (cursor pair_made)) with
  | Ok f =>
    (let '(xs, outs, _, w) := errands toy biting (buffered toy) 20 f [parcel 0 7 entry3; parcel 1 7 entry3] (slow tampered) (zw_new lags) in
     xs = [CarryEnds Corrupt; CarryEnds Carried] /\ match fst (file cfg0 (cursor (w_bytes (snd (zw_close w))))) with Ok f2 => len (f_entries f2) | _ => 9 end = 1) /\
    map (fun x : nat * list wevent => fst (fst (fst (errands toy biting (buffered toy) (fst x) f [parcel 0 7 entry3] (slow pair_made) (zw_new (snd x))))))
      [(20%nat, repeat (WAccept 99) 6 ++ [WFail 8]); (1%nat, repeat (WAccept 99) 6 ++ [WPending; WPending])] =
      [[CarryEnds (WriterSaid (Some (Err (UpstreamReadError (IoOther 8)))))]; [CarryEnds (WriterSaid None)]]
  | _ => False
  end.
Proof. vm_compute. repeat split; reflexivity. Qed.
