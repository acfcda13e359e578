(** Property theorems: locating, opening and reading archives. *)
From Verif Require Import Base SpecFormat SpecCrc SpecUtf8 SpecArchive SpecRead ZString Headers ExtraField Entry
  IO IOFacts Locator Reader EntryReader StreamReader OpenFacts TameFacts EntryFacts EntryReaderFacts EntryProofs ReadProofs Samples BaseFacts.

(** * C03. Every well-formed single-disk archive opens and is reported faithfully. *)
Theorem C03_classic cfg s l lead gap disk cd_size comment tail :
  Forall member_ok l ->
  s_data s = lead ++ members l ++ gap ++ end_record disk disk (len l) (len l) cd_size (len lead) (len comment)
             ++ comment ++ tail ->
  disk < 0x10000 -> len l < 0x10000 -> cd_size < 0x100000000 -> len lead < 0x100000000 ->
  len comment + len tail <= 65535 ->
  (forall q, found_at (le 4 0x06054b50) (s_data s) q -> q <= len (lead ++ members l ++ gap)) ->
  (forall q, found_at (le 4 0x07064b50) (s_data s) q -> q + 20 <> len (lead ++ members l ++ gap)) ->
  nofail (s_sched s) -> len l * entry_mem_size cfg <= isize_max ->
  exists f, fst (file cfg s) = Ok f /\ reported_file l false comment f.
Proof. exact (open_classic_at cfg s l lead gap disk cd_size comment tail). Qed.
Print Assumptions C03_classic.

(** With a ZIP64 end record and locator; a saturated field of the classic record refers to the ZIP64 record. *)
Theorem C03_zip64 cfg s l lead gap between comment tail size made_by needed zdisk zcd zn1 zn2 zsize zoff ldisk ldisks
    disk cd_disk n1 n2 cd_size off :
  Forall member_ok l ->
  s_data s = lead ++ members l ++ gap ++ zip64_end size made_by needed zdisk zcd zn1 zn2 zsize zoff ++ between ++
             zip64_end_locator ldisk (len (lead ++ members l ++ gap)) ldisks ++
             end_record disk cd_disk n1 n2 cd_size off (len comment) ++ comment ++ tail ->
  size < 0x10000000000000000 -> made_by < 0x10000 -> needed < 0x10000 -> zdisk < 0x100000000 -> zcd < 0x100000000 ->
  zn1 < 0x10000000000000000 -> zn2 < 0x10000000000000000 -> zsize < 0x10000000000000000 -> zoff < 0x10000000000000000 ->
  ldisk < 0x100000000 -> ldisks < 0x100000000 -> len (s_data s) < 0x10000000000000000 ->
  disk < 0x10000 -> cd_disk < 0x10000 -> n1 < 0x10000 -> n2 < 0x10000 -> cd_size < 0x100000000 -> off < 0x100000000 ->
  chosen 0xFFFF disk zdisk = chosen 0xFFFF cd_disk zcd ->
  chosen 0xFFFF n1 zn1 = len l -> chosen 0xFFFF n2 zn2 = len l -> chosen 0xFFFFFFFF off zoff = len lead ->
  len comment + len tail <= 65535 ->
  (forall q, found_at (le 4 0x06054b50) (s_data s) q -> q + 22 + len comment + len tail <= len (s_data s)) ->
  nofail (s_sched s) -> len l * entry_mem_size cfg <= isize_max ->
  exists f, fst (file cfg s) = Ok f /\ reported_file l true comment f.
Proof. exact (open_zip64 cfg s l lead gap between comment tail size made_by needed zdisk zcd zn1 zn2 zsize zoff ldisk ldisks
    disk cd_disk n1 n2 cd_size off). Qed.
Print Assumptions C03_zip64.

Example C03_case_classic : exists f, fst (file cfg0 {| s_data := sample; s_pos := 9; s_sched := [RChunk 3; RPending] |}) = Ok f /\
  reported_file [member1; member2] false comment0 f.
Proof.
  apply (C03_classic cfg0 {| s_data := sample; s_pos := 9; s_sched := [RChunk 3; RPending] |}
           [member1; member2] body [] 0 (len (members [member1; member2])) comment0 []);
    try reflexivity; try (cbn; discriminate).
  - exact samples_ok.
  - apply (none_after_ok (le 4 0x06054b50) sample _ eq_refl). vm_compute. reflexivity.
  - intros q F H. revert F. apply (not_at_ok (le 4 0x07064b50) sample q). replace q with (len (body ++ members [member1; member2] ++ []) - 20) by lia.
    vm_compute. reflexivity.
  - repeat constructor.
Qed.
Example C03_case_zip64 : exists f, fst (file cfg0 (cursor sample64)) = Ok f /\ reported_file [member1; member2] true comment0 f.
Proof.
  apply (C03_zip64 cfg0 (cursor sample64) [member1; member2] body [] [] comment0 [] 44 798 46 0 0 2 2
           (len (members [member1; member2])) (len body) 0 1 0 0 0xFFFF 0xFFFF 0xFFFFFFFF 0xFFFFFFFF);
    try reflexivity; try (cbn; discriminate).
  - exact samples_ok.
  - intros q F. pose proof (none_after_ok (le 4 0x06054b50) sample64 (len sample64 - 25) eq_refl ltac:(vm_compute; reflexivity) q F) as H.
    change (len (s_data (cursor sample64))) with (len sample64). assert (25 <= len sample64) by (vm_compute; discriminate).
    change (len comment0) with 3. change (len (@nil byte)) with 0. lia.
  - constructor.
Qed.


(** * C10. Strings that claim to be UTF-8 are. *)
Theorem C10_utf8_strings z : obtainable z ->
  (forall b, zs_as_str z = Ok b -> is_utf8 b) /\ (forall b, zs_into_string z = Ok b -> is_utf8 b) /\
  (zs_enc z = ERaw -> zs_as_str z = Err StringNotUtf8 /\ zs_into_string z = Err StringNotUtf8) /\
  (zs_enc z = EUtf8 -> zs_as_str z = Ok (zs_raw z) /\ zs_into_string z = Ok (zs_raw z)).
Proof. exact (obtainable_str z). Qed.
Print Assumptions C10_utf8_strings.

Example C10_case : zs_as_str (zs_new [xc3; xa9] EUtf8) = Ok [xc3; xa9] /\ zs_as_str (zs_new [xc3] EUtf8) = Err StringNotUtf8 /\
  exists f e, fst (file cfg0 (cursor sample)) = Ok f /\ In e (f_entries f) /\ obtainable (en_filename (st_entry e)).
Proof.
  split; [reflexivity|]. split; [reflexivity|]. destruct C03_case_zip64 as (f & H & R).
  destruct (sample_reads) as (g & Hg & _). destruct (f_entries g) as [|e l] eqn:E.
  - exfalso. revert E. vm_compute in Hg. injection Hg as <-. discriminate.
  - exists g, e. split; [exact Hg|]. split; [rewrite E; now left|]. apply (ob_name _ _ _ _ Hg). rewrite E. now left.
Qed.


(** * C14. The end record is located at the last occurrence of its signature. *)
Theorem C14_located s : nofail (s_sched s) ->
  (forall q, fst (eocdr_locate s) = Ok q -> 4 <= q /\ found_at (le 4 0x06054b50) (s_data s) (q - 4) /\
     forall p, found_at (le 4 0x06054b50) (s_data s) p -> p <= q - 4) /\
  (forall p, found_at (le 4 0x06054b50) (s_data s) p -> len (s_data s) <= p + 65557 -> exists q, fst (eocdr_locate s) = Ok q) /\
  ((forall p, found_at (le 4 0x06054b50) (s_data s) p -> p + 65557 + 2044 < len (s_data s)) ->
     fst (eocdr_locate s) = Err UnableToLocateEOCDR) /\
  ((exists q, fst (eocdr_locate s) = Ok q) \/ fst (eocdr_locate s) = Err UnableToLocateEOCDR).
Proof. exact (located s). Qed.
Print Assumptions C14_located.

(** A failing source: the same answer, or that failure. *)
Theorem C14_located_faults s : fst (eocdr_locate s) = fst (eocdr_locate (cursor (s_data s))) \/
  exists c, In (RFail c) (s_sched s) /\ fst (eocdr_locate s) = Err (UpstreamReadError (IoOther c)).
Proof. exact (located_faults s). Qed.
Print Assumptions C14_located_faults.

Example C14_case : fst (eocdr_locate {| s_data := le 4 0x06054b50 ++ le 4 0x06054b50 ++ repeat x00 18; s_pos := 0; s_sched := [RChunk 0; RPending] |}) = Ok 8 /\
  fst (eocdr_locate (cursor (repeat x50 40))) = Err UnableToLocateEOCDR.
Proof. split; vm_compute; reflexivity. Qed.


(** * C26. The source's chunking does not matter, and its errors surface. *)
Theorem C26_open cfg s : fst (file cfg s) = fst (file cfg (cursor (s_data s))) \/
  exists c, In (RFail c) (s_sched s) /\ fst (file cfg s) = Err (UpstreamReadError (IoOther c)).
Proof. exact (file_faults cfg s). Qed.
Print Assumptions C26_open.

Theorem C26_open_steady cfg s : nofail (s_sched s) -> fst (file cfg s) = fst (file cfg (cursor (s_data s))).
Proof. exact (file_nofail cfg s). Qed.
Print Assumptions C26_open_steady.

Theorem C26_read cd f i s : read_entry cd f i s = read_entry cd f i (cursor (s_data s)) \/
  exists c, In (RFail c) (s_sched s) /\ read_entry cd f i s = Err (UpstreamReadError (IoOther c)).
Proof. exact (read_entry_faults cd f i s). Qed.
Print Assumptions C26_read.

Example C26_case : let s := {| s_data := sample; s_pos := 5; s_sched := [RChunk 0; RPending; RChunk 6; RPending; RPending] |} in
  nofail (s_sched s) /\ (exists f, fst (file cfg0 s) = Ok f /\ read_entry toy f 1 s = Ok [x78; x79]) /\
  fst (file cfg0 {| s_data := sample; s_pos := 5; s_sched := [RChunk 0; RFail 7] |}) = Err (UpstreamReadError (IoOther 7)).
Proof.
  split; [repeat constructor|]. split; [|vm_compute; reflexivity].
  eexists. split; [vm_compute; reflexivity|]. vm_compute. reflexivity.
Qed.


(** * C27. The content of an entry depends only on its own bytes. *)
Theorem C27_content cd f i s e : nofail (s_sched s) -> entry_at f i = Some e -> has_local_header (s_data s) e ->
  read_entry cd f i s = checked_content cd (s_data s) e.
Proof. exact (read_entry_content cd f i s e). Qed.
Print Assumptions C27_content.

Theorem C27_content_mem cd m i e : entry_at (m_file m) i = Some e -> has_local_header (m_data m) e ->
  mem_read_entry cd m i = checked_content cd (m_data m) e.
Proof. exact (mem_read_entry_content cd m i e). Qed.
Print Assumptions C27_content_mem.

(** Two sources with the same local header and the same data for the entry give the same result. *)
Theorem C27_isolated cd f i s1 s2 e : nofail (s_sched s1) -> nofail (s_sched s2) -> entry_at f i = Some e ->
  agree_on (s_data s1) (s_data s2) (st_file_offset e) 30 ->
  agree_on (s_data s1) (s_data s2) (data_start (s_data s1) (st_file_offset e)) (en_compressed_size (st_entry e)) ->
  read_entry cd f i s1 = read_entry cd f i s2.
Proof. exact (content_region cd f i s1 s2 e). Qed.
Print Assumptions C27_isolated.

Theorem C27_consumed cd f i s l e : dec_within cd -> entry_at f i = Some e ->
  forall r s1, seek_reader_at f i s = (Ok (r, e), s1) ->
  s_pos (er_src (snd (er_reads cd l r))) <= s_pos s1 + en_compressed_size (st_entry e).
Proof. exact (consumed_at_most cd f i s l e). Qed.
Print Assumptions C27_consumed.

Example C27_case : exists f e, fst (file cfg0 (cursor sample)) = Ok f /\ entry_at f 1 = Some e /\ has_local_header sample e /\
  region sample e = data2 /\ checked_content toy sample e = Ok [x78; x79] /\
  (exists r s1, seek_reader_at f 1 (cursor sample) = (Ok (r, e), s1) /\
     s_pos s1 = 67 /\ s_pos (er_src (snd (er_reads toy [1; 9; 9] r))) = 72).
Proof.
  eexists. eexists. split; [vm_compute; reflexivity|]. split; [vm_compute; reflexivity|]. split.
  - split; [exists (local1 ++ data1), (skipn 38 sample); split; vm_compute; reflexivity|].
    split; vm_compute; discriminate.
  - split; [vm_compute; reflexivity|]. split; [vm_compute; reflexivity|].
    eexists. eexists. split; [vm_compute; reflexivity|]. split; vm_compute; reflexivity.
Qed.


(** * C28. Checked reads. Full statement: at any time, a checked read succeeds exactly if everything this
    reader delivered has the recorded CRC. It holds for the first checked read ([C28_checked_partial]:
    after any sequence of plain reads); finalising the hash resets it, so a second checked read fails. *)
Theorem C28_checked_partial cd s c n l e : let '(xs, r) := er_reads cd l (er_new s c n) in
  (forall b, fst (er_read_to_end_checked cd e r) = Ok b <->
     fst (er_read_to_end cd r) = Ok b /\ crc32_spec (delivered xs ++ b) = en_crc32 e) /\
  (fst (er_read_to_end_checked cd e r) = Err CRC32CheckError <->
     exists b, fst (er_read_to_end cd r) = Ok b /\ crc32_spec (delivered xs ++ b) <> en_crc32 e) /\
  (forall x, x <> CRC32CheckError -> fst (er_read_to_end_checked cd e r) = Err x <-> fst (er_read_to_end cd r) = Err x) /\
  (forall p, fst (er_read_to_end_checked cd e r) <> Panic p) /\
  (forall b, fst (er_read_to_end cd r) = Ok b -> decoded cd c (take n (drop (s_pos s) (s_data s))) = (delivered xs ++ b, true)).
Proof. exact (checked_iff cd s c n l e). Qed.
Print Assumptions C28_checked_partial.

Theorem C28_string cd e r b : fst (er_read_to_string_checked cd e r) = Ok b <->
  fst (er_read_to_end_checked cd e r) = Ok b /\ is_utf8 b.
Proof. exact (string_checked cd e r b). Qed.
Print Assumptions C28_string.
(** and the errors: not text, of the check, of reading *)
Theorem C28_string_errors cd e r x : fst (er_read_to_string_checked cd e r) = Err x <->
  (exists b, fst (er_read_to_end cd r) = Ok b /\ ~ is_utf8 b /\ x = UpstreamReadError InvalidData) \/
  (exists b, fst (er_read_to_end cd r) = Ok b /\ is_utf8 b /\ fst (er_read_to_end_checked cd e r) = Err x) \/
  fst (er_read_to_end cd r) = Err x.
Proof. exact (string_errors cd e r x). Qed.
Print Assumptions C28_string_errors.
Example C28_string_case : let text b crc := fst (er_read_to_string_checked toy (bare_entry Stored crc 1 1) (er_new (cursor [b]) Stored 1)) in
  text x61 (crc32_spec [x61]) = Ok [x61] /\ text x61 0 = Err CRC32CheckError /\
  text xff (crc32_spec [xff]) = Err (UpstreamReadError InvalidData) /\ text xff 0 = Err (UpstreamReadError InvalidData).
Proof. vm_compute. repeat split; reflexivity. Qed.

Theorem C28_refuted : exists cd s c n e b r, er_read_to_end_checked cd e (er_new s c n) = (Ok b, r) /\
  fst (er_read_to_end cd r) = Ok [] /\ crc32_spec (b ++ []) = en_crc32 e /\
  fst (er_read_to_end_checked cd e r) = Err CRC32CheckError.
Proof. exact checked_twice. Qed.
Print Assumptions C28_refuted.

Example C28_case : let r := er_new (cursor data2) Deflate 5 in
  let e := bare_entry Deflate (crc32_spec [x78; x79]) 2 5 in
  fst (er_reads toy [1] r) = [Ok [x78]] /\ fst (er_read_to_end_checked toy e (snd (er_reads toy [1] r))) = Ok [x79].
Proof. split; vm_compute; reflexivity. Qed.


(** * C29. Corruption of at most four adjacent bytes of a stored entry is detected. *)
Theorem C29_corruption cd f i e pre post a m m' z :
  entry_at f i = Some e ->
  en_compression (st_entry e) = Stored -> len (a ++ m ++ z) = en_compressed_size (st_entry e) ->
  data_start (pre ++ (a ++ m ++ z) ++ post) (st_file_offset e) = len pre -> st_file_offset e + 30 <= len pre ->
  length m = length m' -> (length m <= 4)%nat -> m <> m' ->
  forall s s', s_data s = pre ++ (a ++ m ++ z) ++ post -> s_data s' = pre ++ (a ++ m' ++ z) ++ post ->
  nofail (s_sched s) -> nofail (s_sched s') ->
  read_entry cd f i s = Ok (a ++ m ++ z) -> read_entry cd f i s' = Err CRC32CheckError.
Proof. exact (corruption cd f i e pre post a m m' z). Qed.
Print Assumptions C29_corruption.

Example C29_case : exists f, fst (file cfg0 (cursor sample)) = Ok f /\
  read_entry toy f 0 (cursor sample) = Ok data1 /\
  read_entry toy f 0 (cursor (firstn 31 sample ++ [x68; x6a; x22] ++ skipn 34 sample)) = Err CRC32CheckError.
Proof.
  eexists. split; [vm_compute; reflexivity|]. split; [vm_compute; reflexivity|].
  eapply (C29_corruption toy _ 0 _ (firstn 31 sample) (skipn 34 sample) [x68] [x69; x21] [x6a; x22] [])
    with (s := cursor sample); [vm_compute; reflexivity|..]; try (vm_compute; reflexivity);
    try discriminate; try apply Forall_nil. cbn. lia.
Qed.


(** * C30. Readers of one in-memory archive, polled in any interleaving, do not interfere. *)
Theorem C30_interleaved cd m ops rs k i r e : nth_error rs k = Some r -> mem_reader_at m i = Ok (r, e) ->
  let '(xs, rs') := interleave cd ops rs in
  prefix (delivered (own_results k xs)) (fst (decoded cd (en_compression (st_entry e)) (region (m_data m) e))) /\
  exists r', nth_error rs' k = Some r' /\
    forall n, 0 < n -> fst (er_read cd n r') = Ok [] ->
      decoded cd (en_compression (st_entry e)) (region (m_data m) e) = (delivered (own_results k xs), true).
Proof. exact (interleaved cd m ops rs k i r e). Qed.
Print Assumptions C30_interleaved.

Example C30_case : exists m r1 e1 r2 e2, mem_new cfg0 sample = Ok m /\ mem_reader_at m 0 = Ok (r1, e1) /\ mem_reader_at m 1 = Ok (r2, e2) /\
  fst (interleave toy [(0%nat, 2); (1%nat, 1); (0%nat, 5); (1%nat, 5); (1%nat, 1)] [r1; r2]) =
    [(0%nat, Ok [x68; x69]); (1%nat, Ok [x78]); (0%nat, Ok [x21]); (1%nat, Ok [x79]); (1%nat, Ok [])].
Proof.
  do 5 eexists. split; [vm_compute; reflexivity|]. split; [vm_compute; reflexivity|].
  split; [vm_compute; reflexivity|]. vm_compute. reflexivity.
Qed.


(** * C31. After any history of opens and partial reads, wherever the source was left, an entry reads from its beginning. *)
Theorem C31_any_order cd f h i s p : nofail (s_sched s) ->
  read_entry cd f i (set_pos (seek_uses cd f h s) p) = read_entry cd f i s.
Proof. exact (read_after_uses cd f h i s p). Qed.
Print Assumptions C31_any_order.

Example C31_case : exists f, fst (file cfg0 (cursor sample)) = Ok f /\
  s_pos (seek_uses toy f [(1, [1]); (0, [2]); (7, [1])] (cursor sample)) = 33 /\
  read_entry toy f 0 (seek_uses toy f [(1, [1]); (0, [2]); (7, [1])] (cursor sample)) = Ok data1.
Proof. eexists. split; [vm_compute; reflexivity|]. split; vm_compute; reflexivity. Qed.


(** * C32. Entry index bounds. *)
Theorem C32_seek f i s :
  (len (f_entries f) <= i -> seek_reader_at f i s = (Err EntryIndexOutOfBounds, s)) /\
  (i < len (f_entries f) -> fst (seek_reader_at f i s) <> Err EntryIndexOutOfBounds).
Proof. exact (seek_reader_bounds f i s). Qed.
Print Assumptions C32_seek.

Theorem C32_mem m i :
  (len (f_entries (m_file m)) <= i -> mem_reader_at m i = Err EntryIndexOutOfBounds) /\
  (i < len (f_entries (m_file m)) -> mem_reader_at m i <> Err EntryIndexOutOfBounds).
Proof. exact (mem_reader_bounds m i). Qed.
Print Assumptions C32_mem.

Example C32_case : exists f, fst (file cfg0 (cursor sample)) = Ok f /\ len (f_entries f) = 2 /\
  fst (seek_reader_at f 2 (cursor sample)) = Err EntryIndexOutOfBounds.
Proof. eexists. split; [vm_compute; reflexivity|]. split; vm_compute; reflexivity. Qed.


(** * C36. Unsupported archives are refused. *)
Theorem C36_split cfg s before disk cd_disk n1 n2 cd_size off comment tail :
  s_data s = before ++ end_record disk cd_disk n1 n2 cd_size off (len comment) ++ comment ++ tail ->
  disk < 0x10000 -> cd_disk < 0x10000 -> n1 < 0x10000 -> n2 < 0x10000 -> cd_size < 0x100000000 -> off < 0x100000000 ->
  len comment + len tail <= 65535 ->
  (forall q, found_at (le 4 0x06054b50) (s_data s) q -> q <= len before) ->
  (forall q, found_at (le 4 0x07064b50) (s_data s) q -> q + 20 <> len before) ->
  nofail (s_sched s) ->
  disk <> cd_disk \/ n1 <> n2 -> fst (file cfg s) = Err (FeatureNotSupported FSplit).
Proof. exact (split_classic cfg s before disk cd_disk n1 n2 cd_size off comment tail). Qed.
Print Assumptions C36_split.

Theorem C36_split_zip64 cfg s before between comment tail size made_by needed zdisk zcd zn1 zn2 zsize zoff ldisk ldisks
    disk cd_disk n1 n2 cd_size off :
  s_data s = before ++ zip64_end size made_by needed zdisk zcd zn1 zn2 zsize zoff ++ between ++
             zip64_end_locator ldisk (len before) ldisks ++
             end_record disk cd_disk n1 n2 cd_size off (len comment) ++ comment ++ tail ->
  size < 0x10000000000000000 -> made_by < 0x10000 -> needed < 0x10000 -> zdisk < 0x100000000 -> zcd < 0x100000000 ->
  zn1 < 0x10000000000000000 -> zn2 < 0x10000000000000000 -> zsize < 0x10000000000000000 -> zoff < 0x10000000000000000 ->
  ldisk < 0x100000000 -> ldisks < 0x100000000 -> len (s_data s) < 0x10000000000000000 ->
  disk < 0x10000 -> cd_disk < 0x10000 -> n1 < 0x10000 -> n2 < 0x10000 -> cd_size < 0x100000000 -> off < 0x100000000 ->
  len comment + len tail <= 65535 ->
  (forall q, found_at (le 4 0x06054b50) (s_data s) q -> q + 22 + len comment + len tail <= len (s_data s)) ->
  nofail (s_sched s) ->
  chosen 0xFFFF disk zdisk <> chosen 0xFFFF cd_disk zcd \/ chosen 0xFFFF n1 zn1 <> chosen 0xFFFF n2 zn2 ->
  fst (file cfg s) = Err (FeatureNotSupported FSplit).
Proof. exact (split_zip64 cfg s before between comment tail size made_by needed zdisk zcd zn1 zn2 zsize zoff ldisk ldisks
    disk cd_disk n1 n2 cd_size off). Qed.
Print Assumptions C36_split_zip64.

Theorem C36_stream_features cfg s v fl m t dt crc cs us name xs y :
  nofail (s_sched s) -> drop (s_pos s) (s_data s) =
    local_header v fl m t dt crc cs us (len name) (len (spec_extras xs)) ++ name ++ spec_extras xs ++ y ->
  v < 0x10000 -> fl < 0x10000 -> m < 0x10000 -> t < 0x10000 -> dt < 0x10000 -> crc < 0x100000000 -> cs < 0x100000000 ->
  us < 0x100000000 -> len name < 0x10000 -> len (spec_extras xs) < 0x10000 -> Forall plain_field xs ->
  (N.testbit fl 3 = true -> m = 0 -> fst (stream_next cfg s) = Err (FeatureNotSupported FStreamStored)) /\
  (N.testbit fl 0 = true -> In m [0; 8; 9; 12; 14; 93; 95] -> ~ (N.testbit fl 3 = true /\ m = 0) ->
     fst (stream_next cfg s) = Err (FeatureNotSupported FEncryption)).
Proof. exact (stream_refuses cfg s v fl m t dt crc cs us name xs y). Qed.
Print Assumptions C36_stream_features.

(** An encrypted entry never gets through, whatever its extra-field block is. *)
Theorem C36_stream_encrypted cfg s v fl m t dt crc cs us name x y :
  nofail (s_sched s) -> drop (s_pos s) (s_data s) =
    local_header v fl m t dt crc cs us (len name) (len x) ++ name ++ x ++ y ->
  v < 0x10000 -> fl < 0x10000 -> m < 0x10000 -> t < 0x10000 -> dt < 0x10000 -> crc < 0x100000000 -> cs < 0x100000000 ->
  us < 0x100000000 -> len name < 0x10000 -> len x < 0x10000 ->
  N.testbit fl 0 = true -> forall r, fst (stream_next cfg s) <> Ok r.
Proof. exact (stream_encrypted cfg s v fl m t dt crc cs us name x y). Qed.
Print Assumptions C36_stream_encrypted.

Theorem C36_wrong_directory cfg s before disk n cd_size off comment tail sg y :
  s_data s = before ++ end_record disk disk n n cd_size off (len comment) ++ comment ++ tail ->
  disk < 0x10000 -> 0 < n -> n < 0x10000 -> cd_size < 0x100000000 -> off < 0x100000000 ->
  len comment + len tail <= 65535 ->
  (forall q, found_at (le 4 0x06054b50) (s_data s) q -> q <= len before) ->
  (forall q, found_at (le 4 0x07064b50) (s_data s) q -> q + 20 <> len before) ->
  nofail (s_sched s) -> n * entry_mem_size cfg <= isize_max ->
  drop off (s_data s) = le 4 sg ++ y -> sg < 0x100000000 -> sg <> 0x02014b50 ->
  fst (file cfg s) = Err (UnexpectedHeaderError sg 0x02014b50).
Proof. exact (wrong_directory cfg s before disk n cd_size off comment tail sg y). Qed.
Print Assumptions C36_wrong_directory.

Theorem C36_wrong_local f i e s sg y : entry_at f i = Some e -> nofail (s_sched s) ->
  drop (st_file_offset e) (s_data s) = le 4 sg ++ y -> sg < 0x100000000 -> sg <> 0x04034b50 ->
  fst (seek_reader_at f i s) = Err (UnexpectedHeaderError sg 0x04034b50).
Proof. exact (wrong_local f i e s sg y). Qed.
Print Assumptions C36_wrong_local.

Theorem C36_wrong_stream cfg s sg y : nofail (s_sched s) -> drop (s_pos s) (s_data s) = le 4 sg ++ y ->
  sg < 0x100000000 -> sg <> 0x04034b50 -> sg <> 0x02014b50 ->
  fst (stream_next cfg s) = Err (UnexpectedHeaderError sg 0x04034b50).
Proof. exact (wrong_stream cfg s sg y). Qed.
Print Assumptions C36_wrong_stream.

Example C36_case : fst (file cfg0 (cursor (end_record 0 1 0 0 0 0 0))) = Err (FeatureNotSupported FSplit) /\
  fst (stream_next cfg0 (cursor (local_header 20 8 0 0 33 0 0 0 1 0 ++ [x61]))) = Err (FeatureNotSupported FStreamStored) /\
  fst (stream_next cfg0 (cursor (local_header 20 1 8 0 33 0 0 0 1 0 ++ [x61]))) = Err (FeatureNotSupported FEncryption) /\
  fst (file cfg0 (cursor ([x01; x02; x03; x04] ++ end_record 0 0 1 1 0 0 0))) = Err (UnexpectedHeaderError 0x04030201 0x02014b50).
Proof. repeat split; vm_compute; reflexivity. Qed.


(** * C37. Precedence between the two end records. [C03_zip64] and [C03_classic] state its effect on opening. *)
Theorem C37_combine e z :
  combine e z =
  {| cb_disk_number := chosen 0xFFFF (e_disk_num e) (z_disk_number z);
     cb_disk_number_start_of_cd := chosen 0xFFFF (e_start_cent_dir_disk e) (z_disk_number_start_of_cd z);
     cb_num_entries_on_disk := chosen 0xFFFF (e_num_of_entries_disk e) (z_num_entries_on_disk z);
     cb_num_entries := chosen 0xFFFF (e_num_of_entries e) (z_num_entries z);
     cb_directory_size := chosen 0xFFFFFFFF (e_size_cent_dir e) (z_directory_size z);
     cb_offset := chosen 0xFFFFFFFF (e_cent_dir_offset e) (z_offset z);
     cb_comment_length := e_file_comm_length e |}.
Proof. exact (combine_chosen e z). Qed.
Print Assumptions C37_combine.

Example C37_case : chosen 0xFFFF 0xFFFF 70000 = 70000 /\ chosen 0xFFFF 3 70000 = 3.
Proof. split; reflexivity. Qed.


(** * C38. Opening arbitrary bytes. Full statement: never panics. It is false: a ZIP64 end record can ask for an
    allocation beyond isize::MAX bytes, and with overflow checks on an offset computation can overflow.
    [C38_panics_partial] says these are the only ways. *)
Theorem C38_panics_partial cfg s p : fst (file cfg s) = Panic p ->
  (p = POverflow /\ overflow_checks cfg = true) \/
  (p = PCapacity /\ (isize_max < 65535 * entry_mem_size cfg \/
     exists q, found_at (le 4 0x07064b50) (s_data s) q)).
Proof. exact (file_panics cfg s p). Qed.
Print Assumptions C38_panics_partial.

Theorem C38_no_panic_partial cfg s p : overflow_checks cfg = false -> 65535 * entry_mem_size cfg <= isize_max ->
  (forall q, ~ found_at (le 4 0x07064b50) (s_data s) q) -> fst (file cfg s) <> Panic p.
Proof. exact (no_panic_release cfg s p). Qed.
Print Assumptions C38_no_panic_partial.

(** Reading an entry never panics, whatever the archive holds. *)
Theorem C38_read cd f i s p : read_entry cd f i s <> Panic p.
Proof. exact (read_entry_no_panic cd f i s p). Qed.
Print Assumptions C38_read.

Theorem C38_stream_partial cfg s p : fst (stream_next cfg s) = Panic p -> p = POverflow /\ overflow_checks cfg = true.
Proof. exact (stream_next_panics cfg s p). Qed.
Print Assumptions C38_stream_partial.

Definition c38_capacity : bytes :=
  zip64_end 44 45 45 0 0 0x8000000000000000 0x8000000000000000 0 0 ++ zip64_end_locator 0 0 1 ++ end_record 0 0 0xFFFF 0xFFFF 0 0 0.
Definition c38_overflow : bytes := zip64_end_locator 0 0xFFFFFFFFFFFFFFFF 1 ++ end_record 0 0 0 0 0 0 0.
Definition c38_extra : bytes := local_header 20 0 8 0 33 0 0 0 1 7 ++ [x61] ++ [x34; x12; x09; x00; x01; x00; x09].
Theorem C38_refuted : fst (file release (cursor c38_capacity)) = Panic PCapacity /\
  fst (file cfg0 (cursor c38_overflow)) = Panic POverflow /\
  fst (stream_next cfg0 (cursor c38_extra)) = Panic POverflow /\ len c38_capacity = 98 /\ len c38_overflow = 42.
Proof. repeat split; vm_compute; reflexivity. Qed.
Print Assumptions C38_refuted.

Example C38_case : (forall q, ~ found_at (le 4 0x07064b50) sample q) /\ 65535 * entry_mem_size release <= isize_max.
Proof.
  split; [|vm_compute; discriminate]. intros q F.
  pose proof (none_after_ok (le 4 0x07064b50) sample 0 eq_refl ltac:(vm_compute; reflexivity) q F).
  replace q with 0 in F by lia. revert F. apply not_at_ok. vm_compute. reflexivity.
Qed.

