(** Properties C65 to C67: exactly what stands in the bytes. *)
From Verif Require Import Base BaseFacts SpecFormat SpecCrc SpecUtf8 SpecArchive SpecRead SpecStrict SpecExact ZString ZDate Headers ExtraField Entry IO IOFacts Reader
  EntryReader StreamReader Samples ExactProofs ExactTop.

(** * C65. Opening reports exactly what stands in the bytes. *)
(** Whatever the bytes, whatever the source does: what is reported stands there. *)
Theorem C65_reported cfg s f : fst (file cfg s) = Ok f -> exists x rs, says (s_data s) x rs /\ reports x rs f.
Proof. exact (file_reads cfg s f). Qed.
Print Assumptions C65_reported.
(** The bytes can be taken in one way only. *)
Theorem C65_single d x rs x' rs' : says d x rs -> says d x' rs' -> x = x' /\ rs = rs'.
Proof. exact (says_unique d x rs x' rs'). Qed.
Print Assumptions C65_single.
(** What stands there is reported, if the end record is within reach, the count can be held and the locator's offset does not overflow. *)
Theorem C65_exact cfg s x rs : nofail (s_sched s) -> says (s_data s) x rs ->
  len (s_data s) <= n_at x + 65557 -> n_count x * entry_mem_size cfg <= isize_max ->
  match n_locator x with Some lo => lo + 4 < 0x10000000000000000 | None => True end ->
  forall f, fst (file cfg s) = Ok f <-> reports x rs f.
Proof. exact (file_exact cfg s x rs). Qed.
Print Assumptions C65_exact.
Ltac fields_here := first [apply sf_end; vm_compute; discriminate|
  eapply sf_field; [reflexivity|vm_compute; reflexivity|vm_compute; reflexivity|fields_here]].
Lemma row_is l r m r' m' : read_row l r m -> r = r' -> m = m' -> read_row l r' m'.
Proof. now intros ? <- <-. Qed.
Ltac row_stands := eapply row_is; [eapply row_here; [vm_compute; reflexivity|vm_compute; fields_here]|vm_compute; reflexivity|reflexivity].
(** two entries with extra fields, a ZIP64 end, a comment *)
Definition end64 : ending := {| n_at := 299; n_locator := Some 223; n_count := 2; n_offset := 88; n_comment := comment0 |}.
Definition row1 : row := {| w_flags := 0x0800; w_method := 0; w_time := 0; w_date := 33; w_crc := crc32_spec data1; w_csize := 3; w_usize := 3; w_nlen := 1; w_xlen := 6;
  w_iattr := 0; w_eattr := 0x81A40000; w_offset := 0; w_name := [x61]; w_fields := [(0xCAFE, [x01; x02])]; w_comment := [x6b] |}.
Definition row2 : row := {| w_flags := 0x0008; w_method := 8; w_time := 7; w_date := 33; w_crc := crc32_spec [x78; x79]; w_csize := 0xFFFFFFFF; w_usize := 0xFFFFFFFF;
  w_nlen := 3; w_xlen := 32; w_iattr := 0; w_eattr := 0; w_offset := 0xFFFFFFFF; w_name := [x62; x2f; x63];
  w_fields := [(1, le 8 2 ++ le 8 5 ++ le 8 34)]; w_comment := [] |}.
Example C65_case : says sample64 end64 [row1; row2] /\ placed row2 = (2, 5, 34) /\ len sample64 <= 299 + 65557 /\ exists f, fst (file cfg0 (cursor sample64)) = Ok f.
Proof.
  split; [|split; [vm_compute; reflexivity|]; split; [vm_compute; discriminate|eexists; vm_compute; reflexivity]].
  split; [split; [apply none_after_ok; vm_compute; reflexivity|]|split; [|vm_compute; reflexivity]].
  - do 8 eexists. split; [vm_compute; reflexivity|]. split; [vm_compute; reflexivity|]. cbn [n_locator end64].
    split; [vm_compute; discriminate|]. do 13 eexists. split; [vm_compute; reflexivity|]. split; [vm_compute; reflexivity|]. now repeat split.
  - eapply rows_more; [row_stands|]. eapply rows_more; [row_stands|]. apply rows_none.
Qed.
(** What is let pass: the record claims a name of 65535 bytes; the data ends before, and the name is what there is - here the end
    record itself. Nothing is left for the extra fields it claims. *)
Definition swallow : bytes :=
  le 4 0x02014b50 ++ le 2 20 ++ le 2 20 ++ le 2 0 ++ le 2 0 ++ le 2 0 ++ le 2 33 ++ le 4 0 ++ le 4 0 ++ le 4 0 ++ le 2 0xFFFF ++ le 2 3 ++ le 2 0 ++ le 2 0 ++ le 2 0 ++
  le 4 0 ++ le 4 0 ++
  end_record 0 0 1 1 46 0 0.
Example C65_lenient : len swallow = 68 /\ exists e, fst (file cfg0 (cursor swallow)) = Ok {| f_entries := [e]; f_zip64 := false; f_comment := zs_new [] EUtf8 |} /\
  zs_raw (en_filename (st_entry e)) = end_record 0 0 1 1 46 0 0 /\ en_extra (st_entry e) = [] /\ st_header_size e = 65568.
Proof. split; [reflexivity|]. eexists. split; [vm_compute; reflexivity|]. vm_compute. repeat split; reflexivity. Qed.
(** The ZIP64 end record is believed whatever its signature. *)
Definition unsigned64 : bytes :=
  [x00; x00; x00; x00] ++ skipn 4 (zip64_end 44 45 45 0 0 0 0 0 0) ++ zip64_end_locator 0 0 1 ++ end_record 0 0 0xFFFF 0xFFFF 0 0 0.
Example C65_unsigned : says unsigned64 {| n_at := 76; n_locator := Some 0; n_count := 0; n_offset := 0; n_comment := [] |} [] /\
  fst (file cfg0 (cursor unsigned64)) = Ok {| f_entries := []; f_zip64 := true; f_comment := zs_new [] EUtf8 |}.
Proof.
  split; [|vm_compute; reflexivity]. split; [split; [apply none_after_ok; vm_compute; reflexivity|]|split; [apply rows_none|reflexivity]].
  do 8 eexists. split; [vm_compute; reflexivity|]. split; [vm_compute; reflexivity|]. cbn [n_locator].
  split; [vm_compute; discriminate|]. do 13 eexists. split; [vm_compute; reflexivity|]. split; [vm_compute; reflexivity|]. now repeat split.
Qed.

(** * C66. What is reported is no larger than the bytes it was found in. *)
(** 46 bytes per entry; texts and extra fields together at most twice the archive, since a text may be kept in two encodings. *)
Theorem C66_listing cfg s f : fst (file cfg s) = Ok f ->
  46 * len (f_entries f) <= len (s_data s) /\
  total (fun e => 46 + entry_size (st_entry e)) (f_entries f) <= 2 * len (s_data s) /\ 22 + text_size (f_comment f) <= len (s_data s).
Proof. exact (file_size cfg s f). Qed.
Print Assumptions C66_listing.
Theorem C66_next cfg s r s' : stream_next cfg s = (Ok (Some r), s') ->
  30 + entry_size (rd_entry r) <= 2 * (len (s_data s) - s_pos s) - 2 * (len (s_data s) - s_pos s').
Proof. exact (next_size cfg s r s'). Qed.
Print Assumptions C66_next.
Definition listing_size (r : res zfile) : N := match r with Ok f => total (fun e => 46 + entry_size (st_entry e)) (f_entries f) | _ => 0 end.
Example C66_case : listing_size (fst (file cfg0 (cursor sample))) = 99 /\ len sample = 248 /\
  listing_size (fst (file cfg0 (cursor swallow))) = 68 /\ len swallow = 68.
Proof. vm_compute. repeat split; reflexivity. Qed.
Example C66_next_case : match stream_next cfg0 (cursor sample) with
  | (Ok (Some r), s') => 30 + entry_size (rd_entry r) = 31 /\ s_pos s' = 31 | _ => False end.
Proof. vm_compute. now split. Qed.

(** * C67. The stream reader reports exactly the local header. *)
Theorem C67_reported cfg s o s' : stream_next cfg s = (Ok o, s') ->
  s_data s' = s_data s /\
  match o with
  | None => found_at (le 4 0x02014b50) (s_data s) (s_pos s) /\ s_pos s' = s_pos s + 4
  | Some r => exists t, read_top (past (s_pos s) (s_data s)) t (past (s_pos s') (s_data s)) /\ top_tells t (rd_entry r) /\ top_readable t (rd_entry r) /\
      rd_descriptor r = en_data_descriptor (rd_entry r) /\
      rd_reader r = er_new s' (en_compression (rd_entry r)) (if en_data_descriptor (rd_entry r) then 0xFFFFFFFFFFFFFFFF else en_compressed_size (rd_entry r))
  end.
Proof. exact (next_reads cfg s o s'). Qed.
Print Assumptions C67_reported.
Theorem C67_single l t m t' m' : read_top l t m -> read_top l t' m' -> t = t' /\ m = m'.
Proof. exact (fun R => top_unique l t m R t' m'). Qed.
Print Assumptions C67_single.
Theorem C67_taken cfg s t m e : nofail (s_sched s) -> read_top (past (s_pos s) (s_data s)) t m -> top_tells t e -> top_readable t e ->
  exists r s', stream_next cfg s = (Ok (Some r), s') /\ rd_entry r = e /\ past (s_pos s') (s_data s') = m.
Proof. exact (next_takes cfg s t m e). Qed.
Print Assumptions C67_taken.
Theorem C67_end cfg s : nofail (s_sched s) -> found_at (le 4 0x02014b50) (s_data s) (s_pos s) -> exists s', stream_next cfg s = (Ok None, s').
Proof. exact (next_ends cfg s). Qed.
Print Assumptions C67_end.
Lemma top_is l t m t' m' : read_top l t m -> t = t' -> m = m' -> read_top l t' m'.
Proof. now intros ? <- <-. Qed.
Definition top2 : top := {| tp_flags := 8; tp_method := 8; tp_time := 7; tp_date := 33; tp_crc := 0; tp_csize := 0; tp_usize := 0; tp_name := [x62; x2f; x63]; tp_fields := [] |}.
Example C67_case : exists e, read_top (past 34 sample) top2 (past 67 sample) /\ top_tells top2 e /\ top_readable top2 e /\ en_data_descriptor e = true.
Proof.
  eexists {| en_filename := {| zs_enc := EUtf8; zs_raw := [x62; x2f; x63]; zs_alt := None |}; en_compression := Deflate; en_level := LDefault; en_crc32 := 0;
    en_uncompressed_size := 0; en_compressed_size := 0; en_attr_compat := Unix; en_date := {| zd_date := 33; zd_time := 7 |}; en_iattr := 0; en_eattr := 0;
    en_extra := []; en_comment := {| zs_enc := EUtf8; zs_raw := []; zs_alt := None |}; en_data_descriptor := true |}.
  split; [eapply top_is; [eapply top_here; [vm_compute; reflexivity|vm_compute; fields_here]|vm_compute; reflexivity|vm_compute; reflexivity]|].
  split; [|split; [split; [reflexivity|intros [_ B]; discriminate B]|reflexivity]].
  split; [constructor|]. split; [apply ra_ascii; [reflexivity|constructor; constructor|repeat constructor]|]. repeat split.
Qed.
