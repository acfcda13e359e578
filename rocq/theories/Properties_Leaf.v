(** Property theorems: fixed-size records, flags, methods, extra fields, dates, permissions,
    directory test, CRC-32. *)
From Verif Require Import Base Utf8 SpecUtf8 ZString ZDate ZDateFacts Headers SpecFormat ExtraField
  ExtraFieldFacts Entry EntryFacts HeadersFacts Crc32 SpecCrc CrcFacts LeafProofs.

(** * C04. Fixed-size record codecs are inverse, and follow the format's tables. *)
Theorem C04_local_header v e d u m t dt crc cs us nl xl :
  v < 65536 -> m < 65536 -> t < 65536 -> dt < 65536 -> crc < 4294967296 -> cs < 4294967296 ->
  us < 4294967296 -> nl < 65536 -> xl < 65536 ->
  let h := {| l_version := v;
              l_flags := {| gp_encrypted := e; gp_data_descriptor := d; gp_filename_unicode := u |};
              l_compression := m; l_mod_time := t; l_mod_date := dt; l_crc := crc; l_compressed_size := cs;
              l_uncompressed_size := us; l_file_name_length := nl; l_extra_field_length := xl |} in
  to_le 4 LFH_SIGNATURE ++ lfh_as_slice h = local_header v (flag_word e d u) m t dt crc cs us nl xl /\
  lfh_from (drop 4 (local_header v (flag_word e d u) m t dt crc cs us nl xl)) = h.
Proof. exact (lfh_spec v e d u m t dt crc cs us nl xl). Qed.
Print Assumptions C04_local_header.

Theorem C04_central_header mb v e d u m t dt crc cs us nl xl cl ds ia ea off :
  mb < 65536 -> v < 65536 -> m < 65536 -> t < 65536 -> dt < 65536 -> crc < 4294967296 ->
  cs < 4294967296 -> us < 4294967296 -> nl < 65536 -> xl < 65536 -> cl < 65536 -> ds < 65536 ->
  ia < 65536 -> ea < 4294967296 -> off < 4294967296 ->
  let h := {| c_v_made_by := mb; c_v_needed := v;
              c_flags := {| gp_encrypted := e; gp_data_descriptor := d; gp_filename_unicode := u |};
              c_compression := m; c_mod_time := t; c_mod_date := dt; c_crc := crc; c_compressed_size := cs;
              c_uncompressed_size := us; c_file_name_length := nl; c_extra_field_length := xl;
              c_file_comment_length := cl; c_disk_start := ds; c_inter_attr := ia; c_exter_attr := ea;
              c_lh_offset := off |} in
  to_le 4 CDH_SIGNATURE ++ cdr_as_slice h =
    central_header mb v (flag_word e d u) m t dt crc cs us nl xl cl ds ia ea off /\
  cdr_from (drop 4 (central_header mb v (flag_word e d u) m t dt crc cs us nl xl cl ds ia ea off)) = h.
Proof. exact (cdr_spec mb v e d u m t dt crc cs us nl xl cl ds ia ea off). Qed.
Print Assumptions C04_central_header.

Theorem C04_end_record dn sd nd n sz off cl :
  dn < 65536 -> sd < 65536 -> nd < 65536 -> n < 65536 -> sz < 4294967296 -> off < 4294967296 -> cl < 65536 ->
  let h := {| e_disk_num := dn; e_start_cent_dir_disk := sd; e_num_of_entries_disk := nd;
              e_num_of_entries := n; e_size_cent_dir := sz; e_cent_dir_offset := off; e_file_comm_length := cl |} in
  to_le 4 EOCDR_SIGNATURE ++ eocdr_as_slice h = end_record dn sd nd n sz off cl /\
  eocdr_from (drop 4 (end_record dn sd nd n sz off cl)) = h /\
  (forall v, length v = 18%nat -> eocdr_as_slice (eocdr_from v) = v).
Proof. exact (eocdr_spec dn sd nd n sz off cl). Qed.
Print Assumptions C04_end_record.

Theorem C04_zip64_end_record mb vn dn sd nd n sz off :
  mb < 65536 -> vn < 65536 -> dn < 4294967296 -> sd < 4294967296 -> nd < 18446744073709551616 ->
  n < 18446744073709551616 -> sz < 18446744073709551616 -> off < 18446744073709551616 ->
  let h := {| z_size := 44; z_version_made_by := mb; z_version_needed := vn; z_disk_number := dn;
              z_disk_number_start_of_cd := sd; z_num_entries_on_disk := nd; z_num_entries := n;
              z_directory_size := sz; z_offset := off |} in
  to_le 4 ZIP64_EOCDR_SIGNATURE ++ z64_eocdr_as_bytes h = zip64_end_record mb vn dn sd nd n sz off /\
  z64_eocdr_from (drop 4 (zip64_end_record mb vn dn sd nd n sz off)) = h /\
  (forall v, length v = 52%nat -> z64_eocdr_as_bytes (z64_eocdr_from v) = v).
Proof. exact (z64_eocdr_spec mb vn dn sd nd n sz off). Qed.
Print Assumptions C04_zip64_end_record.

Theorem C04_zip64_locator d off n :
  d < 4294967296 -> off < 18446744073709551616 -> n < 4294967296 ->
  let h := {| zl_disk := d; zl_relative_offset := off; zl_total_disks := n |} in
  to_le 4 ZIP64_EOCDL_SIGNATURE ++ z64_eocdl_as_bytes h = zip64_end_locator d off n /\
  z64_eocdl_from (drop 4 (zip64_end_locator d off n)) = h /\
  (forall v, length v = 16%nat -> z64_eocdl_as_bytes (z64_eocdl_from v) = v).
Proof. exact (z64_eocdl_spec d off n). Qed.
Print Assumptions C04_zip64_locator.

Example C04_case :
  local_header 20 (flag_word false true true) 8 1 2 0xDEADBEEF 5 6 7 8 =
  [x50;x4b;x03;x04; x14;x00; x08;x08; x08;x00; x01;x00; x02;x00; xef;xbe;xad;xde; x05;x00;x00;x00;
   x06;x00;x00;x00; x07;x00; x08;x00].
Proof. vm_compute. reflexivity. Qed.

(** * C05. Flag word: bit 0, bit 3, bit 11, nothing else. *)
Theorem C05_flags_decode v :
  gp_encrypted (gp_from v) = N.testbit v 0 /\
  gp_data_descriptor (gp_from v) = N.testbit v 3 /\
  gp_filename_unicode (gp_from v) = N.testbit v 11.
Proof. exact (flags_decode v). Qed.
Print Assumptions C05_flags_decode.

Theorem C05_flags_encode f :
  gp_value f = flag_word (gp_encrypted f) (gp_data_descriptor f) (gp_filename_unicode f) /\
  gp_as_slice f = le 2 (gp_value f) /\ gp_from (from_le (gp_as_slice f)) = f.
Proof. exact (flags_encode f). Qed.
Print Assumptions C05_flags_encode.

(** * C06. Compression method identifiers. *)
Theorem C06_accepted v : (exists c, compression_try_from v = Ok c) <-> In v [0; 8; 9; 12; 14; 93; 95].
Proof. exact (compression_accept v). Qed.
Print Assumptions C06_accepted.

Theorem C06_rejected v : ~ In v [0; 8; 9; 12; 14; 93; 95] ->
  compression_try_from v = Err (CompressionNotSupported v).
Proof. exact (compression_reject v). Qed.
Print Assumptions C06_rejected.

Theorem C06_bijection : (forall c, compression_try_from (compression_to c) = Ok c) /\
  (forall v c, compression_try_from v = Ok c -> v = compression_to c) /\
  map compression_to [Stored; Deflate; Deflate64; Bz; Lzma; Zstd; Xz] = [0; 8; 9; 12; 14; 93; 95].
Proof. exact (conj compression_roundtrip (conj compression_from_ok eq_refl)). Qed.
Print Assumptions C06_bijection.
(** the same for the one attribute compatibility *)
Theorem C06_attributes v : (attr_try_from v = Ok Unix <-> v = 3) /\ (v <> 3 -> attr_try_from v = Err (AttributeCompatibilityNotSupported v)) /\
  forall a, attr_to a = 3 /\ attr_try_from (attr_to a) = Ok a.
Proof. exact (attr_ids v). Qed.
Print Assumptions C06_attributes.

(** * C07. Declared length of the extra-field block.
    Full statement: for every list, the counted length equals the emitted length. It is false for
    lists containing a ZIP64 field with a disk number (which a parsed entry can contain):
    8 bytes are counted for it, 4 are written. *)
Theorem C07_extra_length_partial l b : fields_as_bytes l = Ok b ->
  len b + 4 * len (filter has_disk l) = fields_count_bytes l.
Proof. exact (len_fields_bytes_any l b). Qed.
Print Assumptions C07_extra_length_partial.

Theorem C07_extra_blocks_partial l b : Forall field_wt l -> Forall field_size_ok l -> fields_count_bytes l < 65536 ->
  fields_as_bytes l = Ok b ->
  b = concat (map (fun x => extra (field_id x) (field_payload x)) l) /\
  Forall (fun x => len (field_payload x) < 65536) l.
Proof. exact (fields_blocks l b). Qed.
Print Assumptions C07_extra_blocks_partial.
(** A ZIP64 field is refused as incomplete exactly if it holds nothing. *)
Theorem C07_zip64_field z : zfb_build z =
  match zf_uncompressed z, zf_compressed z, zf_offset z, zf_disk z with None, None, None, None => Err Zip64ExtendedFieldIncomplete | _, _, _, _ => Ok z end.
Proof. exact (zip64_built z). Qed.
Print Assumptions C07_zip64_field.
(** One that holds no size, but something else, is left for the central directory. *)
Theorem C07_zip64_central z : zfb_eof_only z = true <->
  zf_uncompressed z = None /\ zf_compressed z = None /\ (zf_offset z <> None \/ zf_disk z <> None).
Proof. exact (zip64_central z). Qed.
Print Assumptions C07_zip64_central.

(** A field list obtained by parsing (a ZIP64 field holding an offset and a disk number), whose
    declared length is four larger than what is written; its own size word is wrong too. *)
Definition c07_block : bytes := extra 1 (le 8 0x1122334455 ++ le 4 0).
Theorem C07_refuted : exists l b cfg, parse_extra_fields cfg c07_block 0 0 = Ok l /\
  fields_as_bytes l = Ok b /\ fields_count_bytes l = len b + 4 /\ b <> c07_block /\
  slice 2 4 b = le 2 16 /\ len b = 16.
Proof.
  exists [XZip64 {| zf_uncompressed := None; zf_compressed := None; zf_offset := Some 0x1122334455; zf_disk := Some 0 |}].
  exists (le 2 1 ++ le 2 16 ++ le 8 0x1122334455 ++ le 4 0).
  exists {| overflow_checks := true; entry_mem_size := 8 |}.
  repeat split; try (vm_compute; reflexivity). vm_compute. discriminate.
Qed.
Print Assumptions C07_refuted.

Definition c07_list : list extra_field :=
  [XUnknown 0x5455 3 [x01; x02; x03]; XPath (UV1 7 [x61]);
   XZip64 {| zf_uncompressed := Some 5; zf_compressed := Some 6; zf_offset := None; zf_disk := None |}].
Example C07_case : exists b, fields_as_bytes c07_list = Ok b /\ Forall field_wt c07_list /\
  Forall field_size_ok c07_list /\ len b = 37 /\ fields_count_bytes c07_list = 37.
Proof.
  eexists. split; [reflexivity|].
  repeat split; repeat (first [apply Forall_cons | apply Forall_nil]); repeat split; cbn; try discriminate; try reflexivity.
Qed.

(** * C08. Extra field list round trip. Full statement: parsing what was written gives the same
    list. Hypotheses: no disk number (C07), ZIP64 sizes present exactly when the header's 32-bit
    sizes are saturated (that is how the format says which values are present), total below 64K, and
    the last field not empty - the parser ignores a trailing field with an empty payload. *)
Theorem C08_extra_roundtrip_partial cfg usize csize l b :
  Forall field_wt l -> Forall field_size_ok l -> Forall (field_consistent usize csize) l -> last_nonempty l ->
  fields_count_bytes l < 65536 -> fields_as_bytes l = Ok b -> parse_extra_fields cfg b usize csize = Ok l.
Proof. exact (fields_roundtrip cfg usize csize l b). Qed.
Print Assumptions C08_extra_roundtrip_partial.

Theorem C08_refuted : exists l b, Forall field_wt l /\ Forall field_size_ok l /\ fields_as_bytes l = Ok b /\
  (forall cfg, parse_extra_fields cfg b 0 0 = Ok []) /\ l <> [].
Proof.
  exists [XUnknown 0x1234 0 []]. eexists. repeat split; repeat constructor; try discriminate; reflexivity.
Qed.
Print Assumptions C08_refuted.

Example C08_case : Forall (field_consistent 0xFFFFFFFF 0xFFFFFFFF) c07_list /\ last_nonempty c07_list.
Proof. split; [repeat (first [apply Forall_cons | apply Forall_nil]); repeat split; cbn; try discriminate; try reflexivity|]. vm_compute. discriminate. Qed.

(** * C09. Malformed extra fields. The full statement (never panics) is false when overflow checks
    are on: computing the "remaining" count of the error underflows. *)
Theorem C09_no_panic_release_partial cfg d u c : overflow_checks cfg = false ->
  forall p, parse_extra_fields cfg d u c <> Panic p.
Proof. exact (fun H => proj1 (not_panic _) (parse_release_no_panic cfg d u c H)). Qed.
Print Assumptions C09_no_panic_release_partial.

(** With checks on: no panic on a block that is a sequence of fields plus at most four stray bytes. *)
Theorem C09_no_panic_fitting_partial cfg d u c l : block d l true -> forall p, parse_extra_fields cfg d u c <> Panic p.
Proof. exact (fun H => proj1 (not_panic _) (parse_checked_panic cfg d u c l H)). Qed.
Print Assumptions C09_no_panic_fitting_partial.

(** Success means: the block is that sequence of fields and each one was decoded from its own
    payload (nothing outside the block is read). *)
Theorem C09_success_is_fieldwise cfg d u c xs : parse_extra_fields cfg d u c = Ok xs ->
  exists toks, block d toks true /\
    Forall2 (fun t x => extra_field_from_bytes (fst t) (len (snd t)) (snd t) u c = Ok x) toks xs.
Proof. exact (parse_ok_tokens cfg d u c xs). Qed.
Print Assumptions C09_success_is_fieldwise.

Theorem C09_refuted : exists d cfg, parse_extra_fields cfg d 0 0 = Panic POverflow /\ len d = 6.
Proof.
  exists [x55; x54; x05; x00; x01; x02], {| overflow_checks := true; entry_mem_size := 8 |}. now vm_compute.
Qed.
Print Assumptions C09_refuted.

Example C09_case : block (extra 0x5455 [x01; x02] ++ [x00; x00; x00]) [(0x5455, [x01; x02])] true.
Proof. apply block_field; [reflexivity|reflexivity|discriminate|]. apply block_end. vm_compute. discriminate. Qed.

(** * C12. Date builder and accessors. [build] chains the six setters from the default builder. *)
Theorem C12_build_then_read c y mo d h mi s :
  (1980 <= y <= 2107)%Z -> mo < 16 -> d < 32 -> h < 32 -> mi < 64 -> s < 64 ->
  exists x, build c y mo d h mi s = Ok x /\ zd_year x = y /\ zd_month x = mo /\ zd_day x = d /\
            zd_hour x = h /\ zd_minute x = mi /\ zd_second x = 2 * (s / 2) /\
            zd_date x < 65536 /\ zd_time x < 65536.
Proof. exact (build_components c y mo d h mi s). Qed.
Print Assumptions C12_build_then_read.

Theorem C12_read_then_build c x : zd_date x < 65536 -> zd_time x < 65536 ->
  build c (zd_year x) (zd_month x) (zd_day x) (zd_hour x) (zd_minute x) (zd_second x) = Ok x.
Proof. exact (rebuild c x). Qed.
Print Assumptions C12_read_then_build.

(** MS-DOS packing: the components are the digits of the stored words. *)
Theorem C12_disjoint_bits d :
  zd_year d = (Z.of_N (zd_date d / 512 mod 128) + 1980)%Z /\ zd_month d = zd_date d / 32 mod 16 /\
  zd_day d = zd_date d mod 32 /\ zd_hour d = zd_time d / 2048 mod 32 /\
  zd_minute d = zd_time d / 32 mod 64 /\ zd_second d = zd_time d mod 32 * 2.
Proof. exact (conj (zd_year_eq d) (conj (zd_month_eq d) (conj (zd_day_eq d) (conj (zd_hour_eq d)
  (conj (zd_minute_eq d) (zd_second_eq d)))))). Qed.
Print Assumptions C12_disjoint_bits.

(** With the chrono feature: a UTC instant in range survives, to two-second resolution. *)
Theorem C12_chrono c i x :
  zd_from_chrono c i = Ok x -> (1980 <= i_year i <= 2107)%Z ->
  with_ymd_and_hms (i_year i) (i_month i) (i_day i) (i_hour i) (i_minute i) (i_second i) = Some i ->
  zd_as_chrono x = Some {| i_year := i_year i; i_month := i_month i; i_day := i_day i;
                           i_hour := i_hour i; i_minute := i_minute i; i_second := 2 * (i_second i / 2) |}.
Proof. exact (chrono_roundtrip c i x). Qed.
Print Assumptions C12_chrono.

(** A date is reported exactly if it is a day of the calendar and a time of day. *)
Theorem C12_calendar d i : zd_as_chrono d = Some i <->
  i = {| i_year := zd_year d; i_month := zd_month d; i_day := zd_day d; i_hour := zd_hour d; i_minute := zd_minute d; i_second := zd_second d |} /\
  (exists n, nth_error [0; 31; 28; 31; 30; 31; 30; 31; 31; 30; 31; 30; 31] (N.to_nat (zd_month d)) = Some n /\
     (1 <= zd_day d <= n \/ zd_month d = 2 /\ zd_day d = 29 /\ ((4 | zd_year d) /\ (~ (100 | zd_year d) \/ (400 | zd_year d)))%Z)) /\
  zd_hour d < 24 /\ zd_minute d < 60 /\ zd_second d < 60.
Proof. exact (calendar d i). Qed.
Print Assumptions C12_calendar.
(** An entry that was given no date carries a day that does not exist. *)
Theorem C12_default : zd_year zdate_default = 1980%Z /\ zd_month zdate_default = 0 /\ zd_day zdate_default = 0 /\ zd_as_chrono zdate_default = None.
Proof. repeat split. Qed.
Print Assumptions C12_default.

Example C12_case : build {| overflow_checks := true; entry_mem_size := 8 |} 2024 2 29 23 59 58 =
  Ok {| zd_date := 22621; zd_time := 49021 |}.
Proof. vm_compute. reflexivity. Qed.

(** * C13. Setters replace. Full statement: after [day(x)] the date reports [x]. False when the
    component was already set: the new bits are OR-ed onto the old ones. *)
Theorem C13_setters_on_cleared_partial c d x y :
  (zd_month d = 0 -> x < 16 -> zd_month (zb_month d x) = x) /\
  (zd_day d = 0 -> x < 32 -> zd_day (zb_day d x) = x) /\
  (zd_hour d = 0 -> x < 32 -> zd_hour (zb_hour d x) = x) /\
  (zd_minute d = 0 -> x < 64 -> zd_minute (zb_minute d x) = x) /\
  (zd_second d = 0 -> x < 64 -> zd_second (zb_second d x) = 2 * (x / 2)) /\
  (zd_year d = 1980%Z -> (1980 <= y <= 2107)%Z -> exists d', zb_year c d y = Ok d' /\ zd_year d' = y).
Proof. exact (conj (set_month_fresh d x) (conj (set_day_fresh d x) (conj (set_hour_fresh d x)
  (conj (set_minute_fresh d x) (conj (set_second_fresh d x) (set_year_fresh c d y)))))). Qed.
Print Assumptions C13_setters_on_cleared_partial.

(** What they do in general: OR; and no setter touches another component. *)
Theorem C13_setters_or_partial d x : x < 65536 ->
  zd_day (zb_day d x) = N.lor (zd_day d) (x mod 32) /\
  zd_month (zb_month d x) = N.lor (zd_month d) (x mod 16) /\
  zd_hour (zb_hour d x) = N.lor (zd_hour d) (x mod 32) /\
  zd_minute (zb_minute d x) = N.lor (zd_minute d) (x mod 64) /\
  zd_second (zb_second d x) = 2 * N.lor (zd_second d / 2) (x / 2 mod 32).
Proof. exact (setters_or d x). Qed.
Print Assumptions C13_setters_or_partial.

(** The year, for every i32: its last seven bits from 1980 on are OR-ed in; only a build with overflow checks
    refuses the first 1980 of them. *)
Theorem C13_year c d y : (-2147483648 <= y < 2147483648)%Z ->
  zb_year c d y = if overflow_checks c && (y <? -2147481668)%Z then Panic POverflow
    else Ok {| zd_date := N.lor (zd_date d) (Z.to_N ((y - 1980) mod 128) * 512); zd_time := zd_time d |}.
Proof. exact (zb_year_any c d y). Qed.
Print Assumptions C13_year.
Example C13_year_case : zb_year {| overflow_checks := true; entry_mem_size := 8 |} zdate_default (-2147481669) = Panic POverflow /\
  exists d, zb_year {| overflow_checks := false; entry_mem_size := 8 |} zdate_default (-2147481669) = Ok d /\ zd_year d = 2107%Z.
Proof. split; [reflexivity|]. eexists. vm_compute. split; reflexivity. Qed.

Theorem C13_setters_leave_others d x :
  (zd_year (zb_month d x) = zd_year d /\ zd_day (zb_month d x) = zd_day d /\ zd_time (zb_month d x) = zd_time d) /\
  (zd_year (zb_day d x) = zd_year d /\ zd_month (zb_day d x) = zd_month d /\ zd_time (zb_day d x) = zd_time d) /\
  (zd_date (zb_hour d x) = zd_date d /\ zd_minute (zb_hour d x) = zd_minute d /\ zd_second (zb_hour d x) = zd_second d) /\
  (zd_date (zb_minute d x) = zd_date d /\ zd_hour (zb_minute d x) = zd_hour d /\ zd_second (zb_minute d x) = zd_second d) /\
  (zd_date (zb_second d x) = zd_date d /\ zd_hour (zb_second d x) = zd_hour d /\ zd_minute (zb_second d x) = zd_minute d).
Proof. exact (conj (set_month_others d x) (conj (set_day_others d x) (conj (set_hour_others d x)
  (conj (set_minute_others d x) (set_second_others d x))))). Qed.
Print Assumptions C13_setters_leave_others.

Theorem C13_refuted : exists c d d' d'',
  zb_year c zdate_default 1999 = Ok d /\ zd_year d = 1999%Z /\
  zb_year c d 2024 = Ok d' /\ zd_year d' = 2043%Z /\
  d'' = zb_day (zb_day zdate_default 3) 4 /\ zd_day d'' = 7.
Proof.
  exists {| overflow_checks := true; entry_mem_size := 8 |}. do 3 eexists. vm_compute. repeat split.
Qed.
Print Assumptions C13_refuted.

(** * C41. Unix permissions (in-memory part; the file round trip is in the archive theorems). *)
Theorem C41_permissions e m : m < 65536 ->
  entry_unix_permissions (set_unix_permissions e m) = Some m /\
  en_eattr (set_unix_permissions e m) mod 65536 = en_eattr e mod 65536 /\
  en_eattr (set_unix_permissions e m) < 4294967296.
Proof. exact (perm_roundtrip e m). Qed.
Print Assumptions C41_permissions.
Theorem C41_nothing_else e m : set_eattr (set_unix_permissions e m) (en_eattr e) = e.
Proof. exact (perm_others e m). Qed.
Print Assumptions C41_nothing_else.

Example C41_case : entry_unix_permissions
  (set_unix_permissions (set_eattr (entry_new (zs_from_string [x61]) Stored) 0x81A40010) 33261) = Some 33261.
Proof. vm_compute. reflexivity. Qed.

(** * C42. Directory test: the last scalar value of the name is '/'. [zs_sound] holds of every
    string the crate can produce (C10). *)
Theorem C42_dir e : zs_sound (en_filename e) ->
  match zs_enc (en_filename e) with
  | ERaw => entry_dir e = Err StringNotUtf8
  | EUtf8 => exists b, entry_dir e = Ok b /\
      (b = true <-> exists cs, Forall scalar cs /\ zs_raw (en_filename e) = concat (map encode_scalar (cs ++ [0x2F])))
  end.
Proof. exact (dir_spec e). Qed.
Print Assumptions C42_dir.
Example C42_case : entry_dir (entry_new (zs_new [x61; x2f] EUtf8) Stored) = Ok true /\
  zs_sound (zs_new [x61; x2f] EUtf8) /\ entry_dir (entry_new (zs_new [xff; x2f] EUtf8) Stored) = Err StringNotUtf8.
Proof. split; [reflexivity|]. split; [exact (zs_new_sound _ _)|reflexivity]. Qed.

(** * C43. CRC-32, incrementally, is the polynomial remainder. *)
Theorem C43_crc_pieces ls : hasher_finalize (fold_left hasher_update ls hasher_new) = crc32_spec (concat ls).
Proof. exact (crc_pieces ls). Qed.
Print Assumptions C43_crc_pieces.
Theorem C43_crc_whole l : crc32 l = crc32_spec l.
Proof. exact (crc32_is_spec l). Qed.
Print Assumptions C43_crc_whole.
(** the check value of CRC-32/ISO-HDLC: "123456789" *)
Example C43_case : crc32_spec [x31; x32; x33; x34; x35; x36; x37; x38; x39] = 0xCBF43926.
Proof. vm_compute. reflexivity. Qed.
