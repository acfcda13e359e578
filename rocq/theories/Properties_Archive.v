(** Property theorems: archives written and read back. *)
From Verif Require Import Base SpecFormat SpecCrc SpecUtf8 SpecArchive SpecRead SpecWrite ZString ZDate Headers ExtraField Entry
  IO IOFacts Reader EntryReader Writer WriterFacts Samples WriteSamples ArchiveProofs OutcomeFacts RecordFacts ManyFiles FarFiles Zip64Proofs Utf8 Utf8Facts.

(** * C02. The layout of a closed archive. *)
Theorem C02_layout cd sched l : enc_takes cd -> Forall op_good l ->
  let '(xs, r, w) := run_archive cd sched l in
  r = Ok tt -> len (w_bytes w) < 0x10000000000000000 ->
  exists body its ms, body = w_bytes (snd (run_ops cd l (zw_new sched))) /\
    w_bytes w = body ++ members ms ++ archive_end (w_zip64 w) (len ms) (len (members ms)) (len body) (last_comment l) /\
    Forall2 (fun x it => leaves cd (fst x) (snd x) it) (recorded false xs) its /\ Forall2 (written_in body) its ms.
Proof. exact (layout cd sched l). Qed.
Print Assumptions C02_layout.
Lemma history_good : Forall op_good history.
Proof. repeat constructor; cbn; discriminate. Qed.
Example C02_case : enc_takes toy /\ Forall op_good history /\
  let '(xs, r, w) := run_archive toy bumpy history in r = Ok tt /\ len (w_bytes w) = 541 /\ len (recorded false xs) = 3.
Proof. split; [exact toy_takes|]. split; [exact history_good|]. vm_compute. repeat split; reflexivity. Qed.

(** * C01. What was written is read back. *)
Theorem C01_round_trip_partial cd cfg sched s l : codec_ok cd -> Forall op_good l ->
  let '(xs, r, w) := run_archive cd sched l in
  let d := w_bytes w in
  r = Ok tt -> unambiguous cd cfg l xs (w_zip64 w) d -> s_data s = d -> nofail (s_sched s) ->
  exists f, fst (file cfg s) = Ok f /\ mem_new cfg d = Ok {| m_data := d; m_file := f |} /\ f_zip64 f = w_zip64 w /\
    comment_reads_as (last_comment l) (f_comment f) /\
    Forall2 (fun x st => exists it, leaves cd (fst x) (snd x) it /\ as_written d it st /\ texts_kept it st) (succeeded false xs) (f_entries f) /\
    (forall i no64 o data, nth_error (succeeded false xs) (N.to_nat i) = Some (no64, o) -> holds cd o data ->
       (forall it, leaves cd no64 o it -> straight it) ->
       read_entry cd f i s = Ok data /\ mem_read_entry cd {| m_data := d; m_file := f |} i = Ok data).
Proof. exact (read_back cd cfg sched s l). Qed.
Print Assumptions C01_round_trip_partial.
Lemma history_clear : let '(xs, r, w) := run_archive toy bumpy history in unambiguous toy cfg0 history xs (w_zip64 w) (w_bytes w).
Proof.
  assert (H : let '(xs, r, w) := run_archive toy bumpy history in clear_end xs (w_zip64 w) (last_comment history) (w_bytes w) = true) by (vm_compute; reflexivity).
  destruct (run_archive toy bumpy history) as [[xs r] w]. now apply clear_end_ok.
Qed.
Example C01_case : codec_ok toy /\ Forall op_good history /\
  let '(xs, r, w) := run_archive toy bumpy history in
  r = Ok tt /\ unambiguous toy cfg0 history xs (w_zip64 w) (w_bytes w) /\
  exists f, mem_new cfg0 (w_bytes w) = Ok {| m_data := w_bytes w; m_file := f |} /\ len (f_entries f) = 3 /\
    mem_read_entry toy {| m_data := w_bytes w; m_file := f |} 1 = Ok [x01; x02; x03; x04; x05; x06].
Proof.
  split; [exact toy_ok|]. split; [exact history_good|]. pose proof history_clear as H.
  assert (R : let '(xs, r, w) := run_archive toy bumpy history in r = Ok tt /\
    opened (w_bytes w) (fun f => (len (f_entries f), mem_read_entry toy {| m_data := w_bytes w; m_file := f |} 1)) = Some (3, Ok [x01; x02; x03; x04; x05; x06])).
  { vm_compute. split; reflexivity. }
  destruct (run_archive toy bumpy history) as [[xs r] w]. destruct R as [R1 R2]. apply opened_ok in R2 as (f & F & R2). injection R2 as R2 R3.
  split; [exact R1|]. split; [exact H|]. exists f. auto.
Qed.
(** Not without conditions: an archive comment that looks like an end record hides the entries; a compressed entry
    streamed with ZIP64 forbidden has its sizes exchanged and does not read back. *)
Definition trap : bytes := le 4 0x06054b50 ++ repeat x00 18.
Definition trapped : list wop := [OpWhole entry1 [x68]; OpComment trap].
Theorem C01_refuted : exists cd l, codec_ok cd /\ Forall op_good l /\
  let '(xs, r, w) := run_archive cd [] l in
  r = Ok tt /\ Forall (fun x => worked (snd x) = true) xs /\ succeeded false xs = [(false, OpWhole entry1 [x68])] /\
  exists f, mem_new cfg0 (w_bytes w) = Ok {| m_data := w_bytes w; m_file := f |} /\ f_entries f = [].
Proof.
  exists toy, trapped. split; [exact toy_ok|]. split; [repeat constructor; cbn; discriminate|].
  vm_compute. split; [reflexivity|]. split; [repeat constructor|]. split; [reflexivity|]. eexists. split; reflexivity.
Qed.
Print Assumptions C01_refuted.
Definition forbidden : list wop := [OpForceNoZip64; OpStream false entry2 [SWriteAll [x01; x02; x03]] true].
Theorem C01_refuted_forbidden : exists cd l, codec_ok cd /\ Forall op_good l /\
  let '(xs, r, w) := run_archive cd [] l in
  r = Ok tt /\ Forall (fun x => worked (snd x) = true) xs /\
  exists f o, mem_new cfg0 (w_bytes w) = Ok {| m_data := w_bytes w; m_file := f |} /\ succeeded false xs = [(true, o)] /\ holds cd o [x01; x02; x03] /\
    mem_read_entry cd {| m_data := w_bytes w; m_file := f |} 0 = Err (UpstreamReadError InvalidData).
Proof.
  exists toy, forbidden. split; [exact toy_ok|]. split; [repeat constructor; cbn; discriminate|].
  assert (H : let '(xs, r, w) := run_archive toy [] forbidden in
    r = Ok tt /\ Forall (fun x => worked (snd x) = true) xs /\ succeeded false xs = [(true, OpStream false entry2 [SWriteAll [x01; x02; x03]] true)] /\
    opened (w_bytes w) (fun f => mem_read_entry toy {| m_data := w_bytes w; m_file := f |} 0) = Some (Err (UpstreamReadError InvalidData))).
  { vm_compute. split; [reflexivity|]. split; [repeat constructor|]. split; reflexivity. }
  destruct (run_archive toy [] forbidden) as [[xs r] w]. destruct H as (H1 & H2 & H3 & H4). apply opened_ok in H4 as (f & H4 & H5). split; [exact H1|]. split; [exact H2|].
  exists f, (OpStream false entry2 [SWriteAll [x01; x02; x03]] true). split; [exact H4|]. split; [exact H3|]. split; [|exact H5].
  exact (holds_stream toy entry2 [SWriteAll [x01; x02; x03]]).
Qed.
Print Assumptions C01_refuted_forbidden.

(** * C11. Names and comments come back. *)
Theorem C11_texts_partial cd cfg sched s l : codec_ok cd -> Forall op_good l ->
  let '(xs, r, w) := run_archive cd sched l in
  let d := w_bytes w in
  r = Ok tt -> unambiguous cd cfg l xs (w_zip64 w) d -> s_data s = d -> nofail (s_sched s) ->
  exists f, fst (file cfg s) = Ok f /\
    Forall2 (fun x st => forall e, op_entry (snd x) = Some e ->
      stored_bytes (en_filename (st_entry st)) = stored_bytes (en_filename e) /\ stored_bytes (en_comment (st_entry st)) = stored_bytes (en_comment e) /\
      (texts_clear e -> same_text (en_filename e) (en_filename (st_entry st)) /\ same_text (en_comment e) (en_comment (st_entry st))))
    (succeeded false xs) (f_entries f).
Proof. exact (texts_read_back cd cfg sched s l). Qed.
Print Assumptions C11_texts_partial.
Example C11_case : texts_clear entry1 /\ texts_clear entry2.
Proof.
  assert (U : forall l, utf8_valid l = true -> sound_string (utf8 l)) by (intros l H; split; [intros _; now apply utf8_valid_iff|discriminate]).
  split.
  - split; [now apply U|]. split; [now apply U|]. left. repeat split.
  - split; [split; [intros _; now apply utf8_valid_iff|discriminate]|]. split; [now apply U|]. right. split.
    + left. split; [reflexivity|]. split; [discriminate|]. left. constructor.
    + right. split; [reflexivity|]. split; [intros _; constructor|]. left. constructor.
Qed.
(** Not for every string and every extra field: an empty name loses its alternative's standing, and a Unicode field of an
    unknown version keeps the text of the name from being stored. *)
Definition nameless : zentry := mk_entry {| zs_enc := EUtf8; zs_raw := []; zs_alt := Some [x82] |} (utf8 []) Stored [].
Definition blocked : zentry := mk_entry {| zs_enc := EUtf8; zs_raw := [xc3; xa9]; zs_alt := Some [x82] |} (utf8 []) Stored [XPath (UUnknown x07 [x01])].
Theorem C11_refuted : exists e1 e2, sound_string (en_filename e1) /\ en_extra e1 = [] /\ sound_string (en_filename e2) /\
  zs_raw (en_filename e2) <> [] /\
  let '(xs, r, w) := run_archive toy [] [OpWhole e1 []; OpWhole e2 []] in
  r = Ok tt /\ Forall (fun x => worked (snd x) = true) xs /\
  exists f s1 s2, mem_new cfg0 (w_bytes w) = Ok {| m_data := w_bytes w; m_file := f |} /\ f_entries f = [s1; s2] /\
    ~ same_text (en_filename e1) (en_filename (st_entry s1)) /\ ~ same_text (en_filename e2) (en_filename (st_entry s2)).
Proof.
  exists nameless, blocked. split; [split; [intros _; now apply utf8_valid_iff|discriminate]|]. split; [reflexivity|].
  split; [split; [intros _; now apply utf8_valid_iff|discriminate]|]. split; [discriminate|].
  vm_compute. split; [reflexivity|]. split; [repeat constructor|]. eexists _, _, _. split; [reflexivity|]. split; [reflexivity|].
  split; intros (H & _); discriminate.
Qed.
Print Assumptions C11_refuted.

(** * C15. The archive comment. *)
Theorem C15_comment_partial cd cfg sched s l : codec_ok cd -> Forall op_good l ->
  let '(xs, r, w) := run_archive cd sched l in
  let d := w_bytes w in
  r = Ok tt -> unambiguous cd cfg l xs (w_zip64 w) d -> s_data s = d -> nofail (s_sched s) ->
  exists f, fst (file cfg s) = Ok f /\ zs_raw (f_comment f) = last_comment l /\ zs_alt (f_comment f) = None /\
    (SpecUtf8.is_utf8 (last_comment l) -> zs_enc (f_comment f) = EUtf8).
Proof. exact (comment_read_back cd cfg sched s l). Qed.
Print Assumptions C15_comment_partial.
Example C15_case : last_comment history = [x68; x65; x79] /\
  let '(xs, r, w) := run_archive toy bumpy history in r = Ok tt /\ unambiguous toy cfg0 history xs (w_zip64 w) (w_bytes w).
Proof.
  split; [reflexivity|]. pose proof history_clear as H. assert (R : snd (fst (run_archive toy bumpy history)) = Ok tt) by (vm_compute; reflexivity).
  destruct (run_archive toy bumpy history) as [[xs r] w]. auto.
Qed.
(** Not for every comment: one that looks like an end record is taken for one; one that is too long makes the archive
    unreadable, though [close] succeeds. *)
Theorem C15_refuted : exists c, SpecUtf8.is_utf8 c /\
  let '(xs, r, w) := run_archive toy [] [OpComment c] in
  r = Ok tt /\ exists f, mem_new cfg0 (w_bytes w) = Ok {| m_data := w_bytes w; m_file := f |} /\ zs_raw (f_comment f) = [].
Proof.
  exists trap. split; [now apply utf8_valid_iff|]. vm_compute. split; [reflexivity|]. eexists. split; reflexivity.
Qed.
Print Assumptions C15_refuted.
Theorem C15_refuted_long : exists c, ascii c /\
  let '(xs, r, w) := run_archive toy [] [OpComment c] in r = Ok tt /\ mem_new cfg0 (w_bytes w) = Err UnableToLocateEOCDR.
Proof. exact long_comment_lost. Qed.
Print Assumptions C15_refuted_long.

(** * C19. Without ZIP64. *)
Theorem C19_no_zip64_partial cd sched l : enc_takes cd -> Forall op_good l -> ~ In OpForceZip64 l ->
  let '(xs, r, w) := run_archive cd sched (OpForceNoZip64 :: l) in
  r = Ok tt -> len (w_bytes w) < 0x10000000000000000 ->
  w_zip64 w = false /\
  exists body its ms,
    w_bytes w = body ++ members ms ++
      end_record 0 0 (len (succeeded false xs)) (len (succeeded false xs)) (N.min (len (members ms)) 0xFFFFFFFF) (len body)
        (len (last_comment l) mod 0x10000) ++ last_comment l /\
    len (succeeded false xs) <= 65535 /\ len body <= 0xFFFFFFFF /\
    Forall2 (fun x it => leaves cd true (snd x) it) (recorded false xs) its /\
    Forall2 (fun it a => written_in body it a /\ classic it a) its ms /\
    (Forall (fun x => too_many (snd x) = false) xs -> recorded false xs = succeeded false xs).
Proof. exact (without_zip64 cd sched l). Qed.
Print Assumptions C19_no_zip64_partial.
(** an entry that needs ZIP64 is refused *)
Theorem C19_refused_whole cd o e w : enc_takes cd -> whole_call o -> op_entry o = Some e -> Forall no_disk (en_extra e) -> w_force_no w = true ->
  exists it, leaves cd true o it /\ i_off it = w_offset w /\
    (i_big it || is_over (i_off it) = true -> run_op cd o w = (Err (Zip64Needed LargeFile), w)).
Proof. exact (whole_refused cd o e w). Qed.
Print Assumptions C19_refused_whole.
Theorem C19_refused_stream cd pre e body w : enc_takes cd -> w_force_no w = true -> w_sched w = [] -> (pre = true \/ en_compression e <> Deflate64) ->
  exists it, leaves cd true (OpStream pre e body true) it /\ i_off it = w_offset w /\
    (i_big it || is_over (i_off it) = true ->
     fst (run_op cd (OpStream pre e body true) w) = Err (Zip64Needed LargeFile) \/
     (exists x, (x = ExtraFieldTooLarge \/ x = FileNameTooLarge) /\ run_op cd (OpStream pre e body true) w = (Err x, w))).
Proof. exact (stream_refused cd pre e body w). Qed.
Print Assumptions C19_refused_stream.
Example C19_case : Forall op_good history /\ ~ In OpForceZip64 history /\
  let '(xs, r, w) := run_archive toy bumpy (OpForceNoZip64 :: history) in r = Ok tt /\ len (succeeded false xs) = 3 /\ len (w_bytes w) = 397.
Proof.
  split; [exact history_good|]. split; [intro H; cbn in H; intuition discriminate|]. vm_compute. repeat split; reflexivity.
Qed.
(** Not quite: the sizes of a compressed streamed entry are exchanged; the size of a big directory is saturated. *)
Theorem C19_refuted : exists e data, 
  let '(xs, r, w) := run_archive toy [] [OpForceNoZip64; OpStream false e [SWriteAll data] true] in
  r = Ok tt /\ Forall (fun x => worked (snd x) = true) xs /\ w_zip64 w = false /\
  exists f st, mem_new cfg0 (w_bytes w) = Ok {| m_data := w_bytes w; m_file := f |} /\ f_entries f = [st] /\
    len data = 3 /\ en_uncompressed_size (st_entry st) = 7 /\ en_compressed_size (st_entry st) = 3.
Proof.
  exists entry2, [x01; x02; x03]. vm_compute. split; [reflexivity|]. split; [repeat constructor|]. split; [reflexivity|].
  eexists _, _. repeat split; reflexivity.
Qed.
Print Assumptions C19_refuted.
Theorem C19_refuted_directory : exists l, Forall op_good l /\ ~ In OpForceZip64 l /\
  let '(xs, r, w) := run_archive toy [] (OpForceNoZip64 :: l) in
  r = Ok tt /\ Forall (fun x => worked (snd x) = true) xs /\ w_zip64 w = false /\
  exists body ms, w_bytes w = body ++ members ms ++ end_record 0 0 65535 65535 0xFFFFFFFF (len body) 0 /\ 0xFFFFFFFF < len (members ms).
Proof. exact fat_forbidden. Qed.
Print Assumptions C19_refuted_directory.

(** * C20. ZIP64 where it is needed. *)
Theorem C20_zip64_partial cd sched l : enc_takes cd -> Forall op_good l -> ~ In OpForceNoZip64 l ->
  let '(xs, r, w) := run_archive cd sched l in
  r = Ok tt -> len (w_bytes w) < 0x10000000000000000 ->
  recorded false xs = succeeded false xs /\
  exists body its ms, w_bytes w = body ++ members ms ++ archive_end (w_zip64 w) (len ms) (len (members ms)) (len body) (last_comment l) /\
    Forall2 (fun x it => leaves cd false (snd x) it) (succeeded false xs) its /\
    Forall2 (fun it a => written_in body it a /\ told64 it a) its ms /\
    (Exists (fun it => is_over (i_usize it) || is_over (i_csize it) || is_over (i_off it) = true) its \/ is_over (len body) = true \/ 65535 < len ms ->
     w_zip64 w = true).
Proof. exact (with_zip64 cd sched l). Qed.
Print Assumptions C20_zip64_partial.
Definition huge : wop := OpWholePre (set_uncompressed_size entry1 0x123456789A) [x01].
Example C20_case : Forall op_good [huge] /\
  let '(xs, r, w) := run_archive toy [] [huge] in r = Ok tt /\ w_zip64 w = true /\
  exists f st, mem_new cfg0 (w_bytes w) = Ok {| m_data := w_bytes w; m_file := f |} /\ f_entries f = [st] /\ en_uncompressed_size (st_entry st) = 0x123456789A.
Proof.
  split; [repeat constructor; cbn; discriminate|]. vm_compute. split; [reflexivity|]. split; [reflexivity|]. eexists _, _. repeat split; reflexivity.
Qed.
(** Not for the size of the directory; and a size of exactly 0xFFFFFFFF beyond four gigabytes is not read back. *)
Theorem C20_refuted_directory : exists l, Forall op_good l /\ ~ In OpForceNoZip64 l /\
  let '(xs, r, w) := run_archive toy [] l in
  r = Ok tt /\ Forall (fun x => worked (snd x) = true) xs /\ w_zip64 w = false /\
  exists body ms, w_bytes w = body ++ members ms ++ end_record 0 0 65535 65535 0xFFFFFFFF (len body) 0 /\ 0xFFFFFFFF < len (members ms).
Proof. exact fat_allowed. Qed.
Print Assumptions C20_refuted_directory.
Theorem C20_refuted : exists o1 o2, op_good o1 /\ op_good o2 /\
  let w := snd (run_op toy o1 (zw_new [])) in
  fst (run_op toy o1 (zw_new [])) = Ok tt /\ w_offset w = 4294967326 /\ o2 = OpWholePre edge [] /\ en_uncompressed_size edge = 0xFFFFFFFF /\
  exists c w', run_op toy o2 w = (Ok tt, w') /\ w_cds w' = w_cds w ++ [c] /\
    exists st s', cd_record cfg0 (src (ce_bytes c) 0) = (Ok st, s') /\ en_uncompressed_size (st_entry st) = 4294967326 /\ st_file_offset st = 0xFFFFFFFF.
Proof. exact edge_lost. Qed.
Print Assumptions C20_refuted.

(** * C21. Streamed entries record what was written. *)
Theorem C21_stream_partial cd sched l : enc_takes cd -> Forall op_good l ->
  let '(xs, r, w) := run_archive cd sched l in
  r = Ok tt -> len (w_bytes w) < 0x10000000000000000 ->
  exists body ms, w_bytes w = body ++ members ms ++ archive_end (w_zip64 w) (len ms) (len (members ms)) (len body) (last_comment l) /\
    Forall2 (fun x a => forall e fed, snd x = OpStream false e fed true ->
      exists z off, compressed cd (en_compression e) (fed_bytes fed) z /\ written_in body (streamed (fst x) e (fed_bytes fed) z off) a /\
        a_crc a = crc32_spec (fed_bytes fed) /\
        (fst x = false \/ len z = len (fed_bytes fed) -> a_usize a = len (fed_bytes fed) /\ a_csize a = len z) /\
        (fst x = true -> a_usize a = len z /\ a_csize a = len (fed_bytes fed)))
      (recorded false xs) ms.
Proof. exact (stream_truth cd sched l). Qed.
Print Assumptions C21_stream_partial.
Example C21_case : let '(xs, r, w) := run_archive toy bumpy history in
  r = Ok tt /\ exists x y, recorded false xs = [x; (false, OpStream false entry2 [SWriteAll [x01; x02; x03; x04; x05]; SFlush; SWriteAll []; SWriteAll [x06]] true); y].
Proof. vm_compute. split; [reflexivity|]. eexists _, _. reflexivity. Qed.
(** Not the data descriptor: its sizes are placeholders; and with ZIP64 forbidden the sizes are exchanged (see C19). *)
Theorem C21_refuted : exists e data,
  let '(xs, r, w) := run_archive toy [] [OpStream false e [SWriteAll data] true] in
  r = Ok tt /\ Forall (fun x => worked (snd x) = true) xs /\ len data = 3 /\
  exists before after, w_bytes w = before ++ data ++ data_descriptor32 (crc32_spec data) 0xFFFFFFFF 0xFFFFFFFF ++ after /\ data_start (w_bytes w) 0 = len before.
Proof.
  exists entry1, [x01; x02; x03].
  assert (H : let '(xs, r, w) := run_archive toy [] [OpStream false entry1 [SWriteAll [x01; x02; x03]] true] in
    r = Ok tt /\ Forall (fun x => worked (snd x) = true) xs /\
    w_bytes w = firstn 57 (w_bytes w) ++ [x01; x02; x03] ++ data_descriptor32 (crc32_spec [x01; x02; x03]) 0xFFFFFFFF 0xFFFFFFFF ++ skipn 76 (w_bytes w) /\
    data_start (w_bytes w) 0 = 57 /\ len (firstn 57 (w_bytes w)) = 57).
  { vm_compute. repeat split; repeat constructor. }
  destruct (run_archive toy [] _) as [[xs r] w]. destruct H as (H1 & H2 & H3 & H4 & H5). split; [exact H1|]. split; [exact H2|]. split; [reflexivity|].
  eexists _, _. split; [exact H3|]. now rewrite H4, H5.
Qed.
Print Assumptions C21_refuted.
(** With ZIP64 forbidden: three bytes that compress to seven; the reader is told the opposite. *)
Theorem C21_refuted_exchanged : exists e data z, compressed toy (en_compression e) data z /\ len data = 3 /\ len z = 7 /\
  let '(xs, r, w) := run_archive toy [] [OpForceNoZip64; OpStream false e [SWriteAll data] true] in
  r = Ok tt /\ Forall (fun x => worked (snd x) = true) xs /\
  exists f, mem_new cfg0 (w_bytes w) = Ok {| m_data := w_bytes w; m_file := f |} /\
    map (fun st => (en_uncompressed_size (st_entry st), en_compressed_size (st_entry st))) (f_entries f) = [(7, 3)].
Proof.
  exists entry2, [x01; x02; x03], [x01; x01; x01; x02; x01; x03; x00].
  split. { exact (comp_encoded toy Deflate LDefault [x01; x02; x03] _ _ ltac:(discriminate) ltac:(discriminate)
    (runs_write toy _ [x01; x02; x03] _ _ _ [] [] _ eq_refl (runs_nil toy _))). }
  split; [reflexivity|]. split; [reflexivity|].
  assert (H : let '(xs, r, w) := run_archive toy [] forbidden in r = Ok tt /\ Forall (fun x => worked (snd x) = true) xs /\
    opened (w_bytes w) (fun f => map (fun st => (en_uncompressed_size (st_entry st), en_compressed_size (st_entry st))) (f_entries f)) = Some [(7, 3)]).
  { vm_compute. repeat split; repeat constructor. }
  change (OpForceNoZip64 :: _) with forbidden.
  destruct (run_archive toy [] forbidden) as [[xs r] w]. destruct H as (H1 & H2 & H3). apply opened_ok in H3 as (f & F & H3).
  split; [exact H1|]. split; [exact H2|]. exists f. split; [exact F|exact H3].
Qed.
Print Assumptions C21_refuted_exchanged.

(** * C22. What is too long is refused, and first. *)
Theorem C22_refusal_partial cd o e w : enc_takes cd -> whole_call o -> op_entry o = Some e -> Forall no_disk (en_extra e) ->
  exists it flag lx, leaves cd (w_force_no w) o it /\ i_off it = w_offset w /\
    texts (en_filename e) (en_comment e) flag (en_extra e ++ local_zip64 it) lx /\
    outcome_of w it lx (fst (run_op cd o w)) (snd (run_op cd o w)).
Proof. exact (whole_outcome cd o e w). Qed.
Print Assumptions C22_refusal_partial.
Example C22_case : whole_call (OpWhole entry2 [x09]) /\ Forall no_disk (en_extra entry2) /\
  fst (run_op toy (OpWhole entry2 [x09]) (zw_new [])) = Ok tt.
Proof. split; [discriminate|]. split; [constructor|]. vm_compute. reflexivity. Qed.
(** Not always first: beyond four gigabytes 65530 bytes of extra fields are refused after the entry was written. *)
Theorem C22_refuted : exists o1 e, len (spec_extras (en_extra e)) = 65530 /\ len (stored_bytes (en_filename e)) = 1 /\ len (stored_bytes (en_comment e)) = 0 /\
  let w := snd (run_op toy o1 (zw_new [])) in
  fst (run_op toy o1 (zw_new [])) = Ok tt /\
  let '(r, w') := run_op toy (OpWholePre e []) w in r = Err ExtraFieldTooLarge /\ len (w_bytes w') = len (w_bytes w) + 65561.
Proof. exact wide_late. Qed.
Print Assumptions C22_refuted.

(** * C24. A failed call does not disturb the others. *)
Theorem C24_others_partial cd cfg sched s l : codec_ok cd -> Forall op_good l ->
  let '(xs, r, w) := run_archive cd sched l in
  let d := w_bytes w in
  let ys := filter (fun x => negb (refused x)) xs in
  r = Ok tt -> unambiguous cd cfg l xs (w_zip64 w) d -> s_data s = d -> nofail (s_sched s) ->
  exists f, fst (file cfg s) = Ok f /\
    Forall2 (fun x st => exists it, leaves cd (fst x) (snd x) it /\ as_written d it st /\ texts_kept it st) (succeeded false ys) (f_entries f) /\
    map snd (succeeded false ys) = map fst (filter (fun x => writes_entry (fst x) && worked (snd x)) xs) /\
    (forall i no64 o data, nth_error (succeeded false ys) (N.to_nat i) = Some (no64, o) -> holds cd o data ->
       (forall it, leaves cd no64 o it -> straight it) -> read_entry cd f i s = Ok data).
Proof. exact (read_back_others cd cfg sched s l). Qed.
Print Assumptions C24_others_partial.
(** a history in which two calls fail: a sink error in the second entry, and a refused size *)
Definition mishaps : list wop :=
  [OpWhole entry1 [x68]; OpWhole entry2 [x09]; OpForceNoZip64; OpWholePre (set_uncompressed_size entry1 0x123456789A) [x01]; OpWhole entry1 [x69]].
Definition stumble : list wevent := repeat (WAccept 200) 8 ++ [WFail 5].
Example C24_case : Forall op_good mishaps /\
  let '(xs, r, w) := run_archive toy stumble mishaps in
  r = Ok tt /\ map (fun x => worked (snd x)) xs = [true; false; true; false; true] /\ unambiguous toy cfg0 mishaps xs (w_zip64 w) (w_bytes w).
Proof.
  split; [repeat constructor; cbn; discriminate|].
  assert (H : let '(xs, r, w) := run_archive toy stumble mishaps in
    r = Ok tt /\ map (fun x => worked (snd x)) xs = [true; false; true; false; true] /\ clear_end xs (w_zip64 w) (last_comment mishaps) (w_bytes w) = true)
    by (vm_compute; repeat split; reflexivity).
  destruct (run_archive toy stumble mishaps) as [[xs r] w]. destruct H as (H1 & H2 & H3). split; [exact H1|]. split; [exact H2|]. now apply clear_end_ok.
Qed.
(** Not always: with ZIP64 both forced and forbidden the entry refused as one too many is listed. *)
Theorem C24_refuted : exists l, Forall op_good l /\
  let '(xs, r, w) := run_archive toy [] l in
  r = Ok tt /\ (exists ys o, xs = ys ++ [(o, Err (Zip64Needed TooManyFiles))]) /\
  exists f, mem_new cfg0 (w_bytes w) = Ok {| m_data := w_bytes w; m_file := f |} /\
    len (succeeded false xs) = 65535 /\ len (f_entries f) = 65536.
Proof. exact crowd_listed. Qed.
Print Assumptions C24_refuted.

(** * C44. Header offsets and sizes. *)
Theorem C44_header_partial cd cfg sched s l : codec_ok cd -> Forall op_good l ->
  let '(xs, r, w) := run_archive cd sched l in
  let d := w_bytes w in
  r = Ok tt -> unambiguous cd cfg l xs (w_zip64 w) d -> s_data s = d -> nofail (s_sched s) ->
  exists f, fst (file cfg s) = Ok f /\
    Forall2 (fun x st => exists it a v fl lx, leaves cd (fst x) (snd x) it /\ laid_out it a v fl lx /\ reported a st /\ header_tells d it a v fl lx st)
      (succeeded false xs) (f_entries f).
Proof. exact (read_back_headers cd cfg sched s l). Qed.
Print Assumptions C44_header_partial.
Example C44_case : let '(xs, r, w) := run_archive toy bumpy history in
  exists f s1 s2 s3, mem_new cfg0 (w_bytes w) = Ok {| m_data := w_bytes w; m_file := f |} /\ f_entries f = [s1; s2; s3] /\
    st_file_offset s1 + st_header_size s1 = data_start (w_bytes w) (st_file_offset s1) /\
    st_file_offset s2 + st_header_size s2 <> data_start (w_bytes w) (st_file_offset s2).
Proof. vm_compute. eexists _, _, _, _. split; [reflexivity|]. split; [reflexivity|]. split; [reflexivity|discriminate]. Qed.

(** * C45. Dropped streams leave nothing and disturb nothing. *)
Theorem C45_dropped_partial cd cfg sched s l : codec_ok cd -> Forall op_good l ->
  let '(xs, r, w) := run_archive cd sched l in
  let d := w_bytes w in
  let ys := filter (fun x => negb (dropped (fst x))) xs in
  r = Ok tt -> unambiguous cd cfg l xs (w_zip64 w) d -> s_data s = d -> nofail (s_sched s) ->
  exists f, fst (file cfg s) = Ok f /\
    Forall2 (fun x st => exists it, leaves cd (fst x) (snd x) it /\ as_written d it st /\ texts_kept it st) (succeeded false ys) (f_entries f) /\
    (forall i no64 o data, nth_error (succeeded false ys) (N.to_nat i) = Some (no64, o) -> holds cd o data ->
       (forall it, leaves cd no64 o it -> straight it) -> read_entry cd f i s = Ok data).
Proof. exact (read_back_dropped cd cfg sched s l). Qed.
Print Assumptions C45_dropped_partial.
Example C45_case : let '(xs, r, w) := run_archive toy bumpy history in
  len (filter (fun x => negb (dropped (fst x))) xs) = 4 /\ len xs = 5 /\ len (succeeded false xs) = 3.
Proof. vm_compute. repeat split; reflexivity. Qed.
