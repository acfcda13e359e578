(** Property theorems: archives however their session went. *)
From Verif Require Import Base BaseFacts SpecFormat SpecCrc SpecUtf8 SpecArchive SpecRead SpecWrite SpecEncoder SpecLively SpecBlame SpecMade SpecExact SpecPad SpecApart SpecStrict
  SpecAccept SpecRepack SpecOrdinary SpecLax SpecInterop SpecSize SpecSpells SpecDirectory SpecTold ZString ZDate Headers ExtraField Entry IO IOFacts Reader EntryReader Writer
  StreamPolls EncoderPolls AwaitedWrites Samples WriteSamples EncoderSamples EndProofs MadeProofs Properties_Further Properties_Ordinary Properties_Blame Properties_Encoder Properties_Lax Properties_Pad.

(** * C105. What is known of archives written by calls holds however the session went: by calls, by polls in any order around any encoder, or
    awaited with any patience, whatever failed, waited or was dropped in between. *)
(** The archive, to the last byte of its directory and end: the entries the calls recorded, as they were left, and the comment set last. *)
Theorem C105_layout cd xs body z d : enc_takes cd -> made cd xs body z d -> len d < 0x10000000000000000 ->
  exists its ms, d = body ++ members ms ++ archive_end z (len ms) (len (members ms)) (len body) (last_comment (map fst xs)) /\
    Forall2 (fun x it => leaves cd (fst x) (snd x) it) (recorded false xs) its /\ Forall2 (written_in body) its ms.
Proof. exact (made_layout cd xs body z d). Qed.
Print Assumptions C105_layout.
(** It opens, and what succeeded reads back. *)
Theorem C105_back cd cfg s xs body z d : codec_ok cd -> made cd xs body z d -> unambiguous cd cfg (map fst xs) xs z d -> s_data s = d -> nofail (s_sched s) ->
  exists f, fst (file cfg s) = Ok f /\ mem_new cfg d = Ok {| m_data := d; m_file := f |} /\ f_zip64 f = z /\
    comment_reads_as (last_comment (map fst xs)) (f_comment f) /\
    Forall2 (fun x st => exists it, leaves cd (fst x) (snd x) it /\ as_written d it st /\ texts_kept it st) (succeeded false xs) (f_entries f) /\
    (forall i no64 o data, nth_error (succeeded false xs) (N.to_nat i) = Some (no64, o) -> holds cd o data ->
       (forall it, leaves cd no64 o it -> straight it) ->
       read_entry cd f i s = Ok data /\ mem_read_entry cd {| m_data := d; m_file := f |} i = Ok data).
Proof. exact (made_back cd cfg s xs body z d). Qed.
Print Assumptions C105_back.
(** In the ordinary way nothing is ambiguous (C52). *)
Theorem C105_ordinary cd cfg xs body z d : enc_takes cd -> made cd xs body z d -> Forall (fun x => too_many (snd x) = false) xs ->
  ordinary (map fst xs) -> entry_mem_size cfg <= 0x1000000000000 -> len d < 0x5000000 ->
  z = true \/ succeeded false xs <> [] /\ Forall ordinary_op (map fst xs) \/ len d < 42 + len (last_comment (map fst xs)) -> unambiguous cd cfg (map fst xs) xs z d.
Proof. exact (made_ordinary cd cfg xs body z d). Qed.
Print Assumptions C105_ordinary.
(** Readers that follow the specification see what succeeded as it was written (C94). *)
Theorem C105_seen cd xs body z d : codec_ok cd -> made cd xs body z d -> len d < 0x10000000000000000 ->
  Forall (fun x => too_many (snd x) = false) xs -> sizes_tell cd d (succeeded false xs) ->
  others_clear z (last_comment (map fst xs)) d -> (z = true \/ len d <= 0xFFFFFFFF) ->
  (len d <= 0xFFFFFFFF \/ ~ found_at (le 4 0x04034b50) d 0xFFFFFFFF) -> Forall (unexchanged cd) (succeeded false xs) -> Forall (told_right cd) (succeeded false xs) ->
  exists vs, sights cd d = Some vs /\ Forall2 (fun x v => seen_as cd (snd x) v) (succeeded false xs) vs.
Proof. exact (made_seen cd xs body z d). Qed.
Print Assumptions C105_seen.
(** Anything that does not look like an end may stand behind it (C82). *)
Theorem C105_padded cd cfg s t xs body z d : codec_ok cd -> made cd xs body z d ->
  unambiguous cd cfg (map fst xs) xs z d -> no_new_end d t -> s_data s = d ++ t -> nofail (s_sched s) ->
  if 22 + len (last_comment (map fst xs)) + len t <=? 67456 then
    exists f, fst (file cfg (cursor d)) = Ok f /\ fst (file cfg s) = Ok f /\ f_zip64 f = z /\ comment_reads_as (last_comment (map fst xs)) (f_comment f) /\
      Forall2 (fun x st => exists it, leaves cd (fst x) (snd x) it /\ as_written d it st /\ texts_kept it st) (succeeded false xs) (f_entries f) /\
      (forall i no64 o data, nth_error (succeeded false xs) (N.to_nat i) = Some (no64, o) -> holds cd o data ->
         (forall it, leaves cd no64 o it -> straight it) -> read_entry cd f i s = Ok data)
  else fst (file cfg s) = Err UnableToLocateEOCDR.
Proof. exact (made_padded cd cfg s t xs body z d). Qed.
Print Assumptions C105_padded.
(** Its listing does not depend on what is in front of the directory (C83). *)
Theorem C105_front cd cfg s b xs body z d : codec_ok cd -> made cd xs body z d ->
  unambiguous cd cfg (map fst xs) xs z d -> z = true \/ succeeded false xs <> [] -> len b = len body ->
  s_data s = b ++ drop (len body) d -> nofail (s_sched s) ->
  exists f, fst (file cfg (cursor d)) = Ok f /\ fst (file cfg s) = Ok f /\ f_zip64 f = z /\ comment_reads_as (last_comment (map fst xs)) (f_comment f) /\
    Forall2 (fun x st => exists it, leaves cd (fst x) (snd x) it /\ as_written d it st /\ texts_kept it st) (succeeded false xs) (f_entries f).
Proof. exact (made_front cd cfg s b xs body z d). Qed.
Print Assumptions C105_front.
(** Its entries share no bytes (C89). *)
Theorem C105_apart cd cfg s xs body z d : codec_ok cd -> made cd xs body z d -> unambiguous cd cfg (map fst xs) xs z d -> s_data s = d -> nofail (s_sched s) ->
  Forall (fun x => forall it, leaves cd (fst x) (snd x) it -> straight it) (succeeded false xs) ->
  exists f, fst (file cfg s) = Ok f /\ one_behind_other d 0 (f_entries f) (len body).
Proof. exact (made_apart cd cfg s xs body z d). Qed.
Print Assumptions C105_apart.
(** Cut anywhere before its comment, it does not open (C39) ... *)
Theorem C105_cut cd cfg s n xs body z d : codec_ok cd -> made cd xs body z d -> len d < 0x10000000000000000 ->
  let e := len d - len (last_comment (map fst xs)) - 22 in
  (forall q, found_at (le 4 0x06054b50) d q -> q = e) ->
  s_data s = take n d -> nofail (s_sched s) -> n + len (last_comment (map fst xs)) < len d ->
  fst (file cfg s) = if n <? e + 4 then Err UnableToLocateEOCDR else Err (UpstreamReadError UnexpectedEof).
Proof. exact (made_cut cd cfg s n xs body z d). Qed.
Print Assumptions C105_cut.
(** ... and cut inside the comment, it opens with what is left of it. *)
Theorem C105_cut_comment cd cfg s n xs body z d : codec_ok cd -> made cd xs body z d ->
  unambiguous cd cfg (map fst xs) xs z d -> s_data s = take n d -> nofail (s_sched s) ->
  len d <= n + len (last_comment (map fst xs)) -> n <= len d ->
  exists f f', fst (file cfg (cursor d)) = Ok f /\ fst (file cfg s) = Ok f' /\
    f_entries f' = f_entries f /\ f_zip64 f' = f_zip64 f /\
    comment_reads_as (last_comment (map fst xs)) (f_comment f) /\
    comment_reads_as (take (n + len (last_comment (map fst xs)) - len d) (last_comment (map fst xs))) (f_comment f').
Proof. exact (made_cut_comment cd cfg s n xs body z d). Qed.
Print Assumptions C105_cut_comment.
(** Without a comment, three numbers decide whether it opens (C91). *)
Theorem C105_commentless cd cfg s xs body z d : codec_ok cd -> made cd xs body z d -> last_comment (map fst xs) = [] ->
  len d < 0x10000000000000000 -> s_data s = d -> nofail (s_sched s) ->
  exists body records, d = body ++ records ++ archive_end z (len (recorded false xs)) (len records) (len body) [] /\
    (Forall (tame d) (recorded false xs) -> len records = directory_size (recorded false xs)) /\
    (spelled_by (len (recorded false xs)) (len records) (len body) -> fst (file cfg s) = Err (UpstreamReadError UnexpectedEof)) /\
    (~ spelled_by (len (recorded false xs)) (len records) (len body) ->
     (z = false -> forall q, found_at (le 4 0x07064b50) d q -> q + 42 <> len d) ->
     (z = true -> Forall (fun x => too_many (snd x) = false) xs) -> sizes_tell cd d (succeeded false xs) ->
     len (succeeded false xs) * entry_mem_size cfg <= 0x7FFFFFFFFFFFFFFF ->
     exists f, fst (file cfg s) = Ok f /\ f_zip64 f = z /\ zs_raw (f_comment f) = [] /\
       Forall2 (fun x st => exists it, leaves cd (fst x) (snd x) it /\ as_written d it st /\ texts_kept it st) (succeeded false xs) (f_entries f) /\
       (forall i no64 o data, nth_error (succeeded false xs) (N.to_nat i) = Some (no64, o) -> holds cd o data ->
          (forall it, leaves cd no64 o it -> straight it) -> read_entry cd f i s = Ok data)).
Proof. exact (made_commentless cd cfg s xs body z d). Qed.
Print Assumptions C105_commentless.
(** Whether its end is ambiguous can be seen by opening it (C79). *)
Theorem C105_recognized cd cfg s xs body z d : codec_ok cd -> made cd xs body z d -> len d < 0x10000000000000000 -> (z = true -> Forall (fun x => too_many (snd x) = false) xs) ->
  sizes_tell cd d (succeeded false xs) -> len (succeeded false xs) * entry_mem_size cfg <= 0x7FFFFFFFFFFFFFFF -> s_data s = d -> nofail (s_sched s) ->
  (end_clear z (last_comment (map fst xs)) d <->
   exists f, fst (file cfg s) = Ok f /\ f_zip64 f = z /\ zs_raw (f_comment f) = last_comment (map fst xs)).
Proof. exact (made_recognized cd cfg s xs body z d). Qed.
Print Assumptions C105_recognized.
(** Equal archives have equal entries, in whichever ways they were made (C87). *)
Theorem C105_told cd cfg xs1 b1 z1 xs2 b2 z2 d : codec_ok cd -> made cd xs1 b1 z1 d -> made cd xs2 b2 z2 d ->
  unambiguous cd cfg (map fst xs1) xs1 z1 d -> unambiguous cd cfg (map fst xs2) xs2 z2 d ->
  z1 = z2 /\ last_comment (map fst xs1) = last_comment (map fst xs2) /\
  Forall2 (fun x y => exists a b, leaves cd (fst x) (snd x) a /\ leaves cd (fst y) (snd y) b /\ indistinct a b) (succeeded false xs1) (succeeded false xs2) /\
  (forall i n1 o1 d1 n2 o2 d2, nth_error (succeeded false xs1) i = Some (n1, o1) -> nth_error (succeeded false xs2) i = Some (n2, o2) ->
     holds cd o1 d1 -> holds cd o2 d2 -> (forall it, leaves cd n1 o1 it -> straight it) -> (forall it, leaves cd n2 o2 it -> straight it) -> d1 = d2).
Proof. exact (made_told cd cfg xs1 b1 z1 xs2 b2 z2 d). Qed.
Print Assumptions C105_told.

(** The session of C104 that met a fault, and kept a caller waiting until they gave up. *)
Example C105_case : codec_ok toy /\ exists xs body z d, made toy xs body z d /\ unambiguous toy cfg0 (map fst xs) xs z d /\
  map (fun x => match snd x with Ok _ => true | _ => false end) xs = [true; false; true; true; true] /\ len (succeeded false xs) = 2 /\
  Forall (fun x => too_many (snd x) = false) xs /\ Forall (unexchanged toy) (succeeded false xs) /\ Forall (told_right toy) (succeeded false xs) /\
  (forall q, found_at (le 4 0x06054b50) d q -> q = len d - len (last_comment (map fst xs)) - 22) /\ no_new_end d (repeat x00 20) /\
  len body = 246 /\ len d = 487 /\ last_comment (map fst xs) = [x68] /\ ordinary (map fst xs) /\ Forall ordinary_op (map fst xs).
Proof.
  split; [exact toy_ok|].
  assert (H : let '(outs, w) := awaited_ops toy (buffered toy) 3 rough (zw_new shaky) in
    let xs := map settled outs in
    let '(r, w') := zw_close w in
    r = Ok tt /\ clear_end xs (w_zip64 w') (last_comment (map fst xs)) (w_bytes w') = true /\
    map (fun x => match snd x with Ok _ => true | _ => false end) xs = [true; false; true; true; true] /\
    succeeded false xs = [(false, nth 0 rough OpForceZip64); (false, nth 3 rough OpForceZip64)] /\
    forallb (fun x => negb (too_many (snd x))) xs = true /\ only_at (le 4 0x06054b50) (w_bytes w') (len (w_bytes w') - len (last_comment (map fst xs)) - 22) = true /\
    len (w_bytes w) = 246 /\ len (w_bytes w') = 487 /\ last_comment (map fst xs) = [x68] /\
    map fst xs = [nth 0 rough OpForceZip64; nth 1 rough OpForceZip64; given_up (nth 2 rough OpForceZip64); nth 3 rough OpForceZip64; nth 4 rough OpForceZip64]) by (vm_compute; repeat split; reflexivity).
  destruct (awaited_ops toy (buffered toy) 3 rough (zw_new shaky)) as [outs w] eqn:R. cbv zeta in H. destruct (zw_close w) as [r w'] eqn:C.
  destruct H as (-> & H2 & H3 & H4 & H5 & H6 & H7 & H8 & H9 & H0).
  exists (map settled outs), (w_bytes w), (w_zip64 w'), (w_bytes w').
  split; [exact (by_awaits toy (buffered toy) _ 3 shaky rough outs w w' (buffered_ok toy (proj1 toy_ok)) rough_good R C)|].
  split; [exact (clear_end_ok toy _ _ _ _ H2)|]. split; [exact H3|]. rewrite H4. split; [reflexivity|].
  split; [apply Forall_forall; intros x I; rewrite forallb_forall in H5; specialize (H5 x I); now destruct (too_many (snd x))|].
  split; [repeat constructor; apply unexchanged_free|]. split; [repeat constructor|]. split; [exact (only_at_ok _ _ _ H6)|]. split; [apply C82_zeros|].
  split; [exact H7|]. split; [exact H8|]. split; [exact H9|]. rewrite H0. split.
  - unfold ordinary, free_of. vm_compute. split; [reflexivity|]. split; [discriminate|]. intuition discriminate.
  - repeat (constructor; [first [exact entry3_quiet | exact Logic.I]|]). constructor.
Qed.
(** One archive made in three ways. *)
Definition way1 : list wop := [OpStream false entry3 [SWriteAll [x05; x06]] true; OpComment [x68]].
Definition way2 : list visit := [Polls false entry3 [PollWrite [x05]; PollFlush; PollWrite [x06]; PollClose] 9; Calls (OpComment [x68])].
Definition way3 : list wop := [OpStream false entry3 [SWriteAll [x05]; SFlush; SWriteAll [x06]] true; OpComment [x68]].
Example C105_ways : exists xs1 xs2 xs3 b z d, made toy xs1 b z d /\ made toy xs2 b z d /\ made toy xs3 b z d /\
  unambiguous toy cfg0 (map fst xs1) xs1 z d /\ unambiguous toy cfg0 (map fst xs2) xs2 z d /\ unambiguous toy cfg0 (map fst xs3) xs3 z d /\
  map fst xs1 = way1 /\ map fst xs2 = way1 /\ map fst xs3 = way3 /\ len d = 264.
Proof.
  assert (H : let '(xs1, w1) := run_ops toy way1 (zw_new [WAccept 20; WAccept 3]) in
    let '(outs2, w2) := run_visits toy (buffered toy) way2 (zw_new halting) in
    let '(outs3, w3) := awaited_ops toy (buffered toy) 5 way3 (zw_new halting) in
    let '(r1, w1') := zw_close w1 in let '(r2, w2') := zw_close w2 in let '(r3, w3') := zw_close w3 in
    let xs2 := map counts_as outs2 in let xs3 := map settled outs3 in
    (r1 = Ok tt /\ r2 = Ok tt /\ r3 = Ok tt) /\
    (w_bytes w2 = w_bytes w1 /\ w_bytes w3 = w_bytes w1 /\ w_zip64 w2' = w_zip64 w1' /\ w_zip64 w3' = w_zip64 w1' /\ w_bytes w2' = w_bytes w1' /\ w_bytes w3' = w_bytes w1') /\
    (clear_end xs1 (w_zip64 w1') (last_comment (map fst xs1)) (w_bytes w1') = true /\ clear_end xs2 (w_zip64 w1') (last_comment (map fst xs2)) (w_bytes w1') = true /\
     clear_end xs3 (w_zip64 w1') (last_comment (map fst xs3)) (w_bytes w1') = true) /\
    map fst xs1 = way1 /\ map fst xs2 = way1 /\ map fst xs3 = way3 /\ len (w_bytes w1') = 264 /\
    forallb (fun x => forallb (fun y => match snd y with WErr _ => false | _ => true end) (snd (snd x))) outs2 = true) by (vm_compute; repeat split; reflexivity).
  destruct (run_ops toy way1 _) as [xs1 w1] eqn:R1. destruct (run_visits toy (buffered toy) way2 _) as [outs2 w2] eqn:R2.
  destruct (awaited_ops toy (buffered toy) 5 way3 _) as [outs3 w3] eqn:R3.
  destruct (zw_close w1) as [r1 w1'] eqn:C1. destruct (zw_close w2) as [r2 w2'] eqn:C2. destruct (zw_close w3) as [r3 w3'] eqn:C3. cbv zeta in H.
  destruct H as ((-> & -> & ->) & (B2 & B3 & Z2 & Z3 & D2 & D3) & (U1 & U2 & U3) & M1 & M2 & M3 & L & F).
  assert (G1 : Forall op_good way1) by (repeat constructor; cbn; discriminate).
  pose proof (buffered_ok toy (proj1 toy_ok)) as OK.
  exists xs1, (map counts_as outs2), (map settled outs3), (w_bytes w1), (w_zip64 w1'), (w_bytes w1').
  split; [exact (by_calls toy _ way1 xs1 w1 w1' G1 R1 C1)|]. split.
  { rewrite <- B2, <- Z2, <- D2. apply (by_polls toy (buffered toy) _ _ _ _ _ _ OK R2 C2).
    - rewrite <- (Forall_map fst op_good), M2. exact G1.
    - apply Forall_forall. intros [v [r0 ys]] I. rewrite forallb_forall in F. specialize (F _ I). cbn [snd] in F. destruct v as [o|pre e l k]; [exact Logic.I|].
      destruct r0; [|exact Logic.I]. right. right. rewrite forallb_forall in F. apply Forall_forall. intros y Y. specialize (F y Y). unfold poll_failed.
      destruct (snd y); [exact (fun x => x)|exact (fun x => x)|discriminate F]. }
  split.
  { rewrite <- B3, <- Z3, <- D3. apply (by_awaits toy (buffered toy) _ 5 halting way3 _ _ _ OK); [|exact R3|exact C3]. repeat constructor; cbn; discriminate. }
  split; [exact (clear_end_ok toy _ _ _ _ U1)|]. split; [exact (clear_end_ok toy _ _ _ _ U2)|]. split; [exact (clear_end_ok toy _ _ _ _ U3)|]. exact (conj M1 (conj M2 (conj M3 L))).
Qed.
