(** The readers as other builds of the crate have them: fewer compression methods (Cargo features), a narrower usize. *)
From Verif Require Import Base ZString ZDate Headers ExtraField Entry IO Locator Reader EntryReader StreamReader.

(** Cargo.toml 21-40: which methods are compiled in; and [usize::MAX] of the target *)
Record build := { b_has : compression -> bool; b_usize_max : N }.

(** spec/compression.rs 28-51, with the [cfg] attributes of 34-47 *)
Definition b_compression_try_from (b : build) (v : N) : res compression :=
  let arm c := if b_has b c then Ok c else Err (CompressionNotSupported v) in
  match v with
  | 0 => Ok Stored
  | 8 => arm Deflate
  | 9 => arm Deflate64
  | 12 => arm Bz
  | 14 => arm Lzma
  | 93 => arm Zstd
  | 95 => arm Xz
  | _ => Err (CompressionNotSupported v)
  end.

(** base/read/mod.rs 139-196 *)
Definition b_cd_record (b : build) (cfg : config) : SM source stored_entry :=
  assert_signature CDH_SIGNATURE ;;;
  header <- cdr_from_reader ;;
  let header_size := SIGNATURE_LENGTH + LFH_LENGTH in
  let trailing_size := c_file_name_length header + c_extra_field_length header in
  filename_basic <- read_bytes (c_file_name_length header) ;;
  compression <- lift (b_compression_try_from b (c_compression header)) ;;
  extra_field <- read_bytes (c_extra_field_length header) ;;
  extra_fields <- lift (parse_extra_fields cfg extra_field (c_uncompressed_size header) (c_compressed_size header)) ;;
  comment_basic <- read_bytes (c_file_comment_length header) ;;
  let z := get_zip64_extra_field extra_fields in
  let '(uncompressed_size, compressed_size) :=
    get_combined_sizes (c_uncompressed_size header) (c_compressed_size header) z in
  let file_offset :=
    match z with
    | Some z => if c_lh_offset header =? NON_ZIP64_MAX_SIZE
                then match zf_offset z with Some o => o | None => c_lh_offset header end
                else c_lh_offset header
    | None => c_lh_offset header
    end in
  let filename := detect_filename filename_basic (gp_filename_unicode (c_flags header)) extra_fields in
  let comment := detect_comment comment_basic (gp_filename_unicode (c_flags header)) extra_fields in
  ret {| st_entry :=
           {| en_filename := filename; en_compression := compression; en_level := LDefault;
              en_crc32 := c_crc header; en_uncompressed_size := uncompressed_size;
              en_compressed_size := compressed_size; en_attr_compat := Unix;
              en_date := {| zd_date := c_mod_date header; zd_time := c_mod_time header |};
              en_iattr := c_inter_attr header; en_eattr := c_exter_attr header;
              en_extra := extra_fields; en_comment := comment;
              en_data_descriptor := gp_data_descriptor (c_flags header) |};
         st_file_offset := file_offset; st_header_size := header_size + trailing_size |}.

(** base/read/mod.rs 91-94 *)
Fixpoint b_cd_loop (b : build) (cfg : config) (fuel : nat) (n : N) : SM source (list stored_entry) :=
  match fuel with
  | O => lift (Panic PFuel)
  | S f =>
    if n =? 0 then ret []
    else e <- b_cd_record b cfg ;; r <- b_cd_loop b cfg f (n - 1) ;; ret (e :: r)
  end.


(** isize::MAX of the target, and [Vec::with_capacity] on it *)
Definition b_isize_max (b : build) : N := b_usize_max b / 2.
Definition b_with_capacity (b : build) (cfg : config) (n : N) : res unit :=
  if n * entry_mem_size cfg <=? b_isize_max b then Ok tt else Panic PCapacity.

(** base/read/mod.rs 84-97 [cd]: [num_of_entries.try_into()] is u64 to usize *)
Definition b_cd (b : build) (cfg : config) (num_of_entries : N) : SM source (list stored_entry) :=
  if b_usize_max b <? num_of_entries then fail TargetZip64NotSupported
  else
    lift (b_with_capacity b cfg num_of_entries) ;;;
    s <- get ;;
    b_cd_loop b cfg (S (length (s_data s))) num_of_entries.

(** base/read/mod.rs 39-82 [file] *)
Definition b_file (b : build) (cfg : config) : SM source zfile :=
  eocdr_offset <- eocdr_locate ;;
  seek_start eocdr_offset ;;;
  eocdr <- eocdr_from_reader ;;
  comment <- read_string (e_file_comm_length eocdr) EUtf8 ;;
  '(comb, zip64) <-
    (if eocdr_offset <? ZIP64_EOCDL_LENGTH + SIGNATURE_LENGTH
     then ret (combined_from eocdr, false)
     else
       seek_start (eocdr_offset - (ZIP64_EOCDL_LENGTH + SIGNATURE_LENGTH)) ;;;
       zip64_locator <- z64_eocdl_try_from_reader ;;
       match zip64_locator with
       | Some locator =>
         p <- lift (uadd cfg (zl_relative_offset locator) SIGNATURE_LENGTH) ;;
         seek_start p ;;;
         zip64_eocdr <- z64_eocdr_from_reader ;;
         ret (combine eocdr zip64_eocdr, true)
       | None => ret (combined_from eocdr, false)
       end) ;;
  if negb (cb_disk_number comb =? cb_disk_number_start_of_cd comb)
     || negb (cb_num_entries comb =? cb_num_entries_on_disk comb)
  then fail (FeatureNotSupported FSplit)
  else
    seek_start (cb_offset comb) ;;;
    entries <- b_cd b cfg (cb_num_entries comb) ;;
    ret {| f_entries := entries; f_zip64 := zip64; f_comment := comment |}.

(** base/read/mod.rs 198-260 [lfh] *)
Definition b_lfh_read (b : build) (cfg : config) : SM source (option zentry) :=
  sig <- read_exact 4 ;;
  let signature := from_le sig in
  if signature =? CDH_SIGNATURE then ret None
  else if negb (signature =? LFH_SIGNATURE) then fail (UnexpectedHeaderError signature LFH_SIGNATURE)
  else
    header <- lfh_from_reader ;;
    filename_basic <- read_bytes (l_file_name_length header) ;;
    compression <- lift (b_compression_try_from b (l_compression header)) ;;
    extra_field <- read_bytes (l_extra_field_length header) ;;
    extra_fields <- lift (parse_extra_fields cfg extra_field (l_uncompressed_size header) (l_compressed_size header)) ;;
    let '(uncompressed_size, compressed_size) :=
      get_combined_sizes (l_uncompressed_size header) (l_compressed_size header)
                         (get_zip64_extra_field extra_fields) in
    if gp_data_descriptor (l_flags header) && compression_eqb compression Stored
    then fail (FeatureNotSupported FStreamStored)
    else if gp_encrypted (l_flags header) then fail (FeatureNotSupported FEncryption)
    else
      let filename := detect_filename filename_basic (gp_filename_unicode (l_flags header)) extra_fields in
      ret (Some {| en_filename := filename; en_compression := compression; en_level := LDefault;
                   en_crc32 := l_crc header; en_uncompressed_size := uncompressed_size;
                   en_compressed_size := compressed_size; en_attr_compat := Unix;
                   en_date := {| zd_date := l_mod_date header; zd_time := l_mod_time header |};
                   en_iattr := 0; en_eattr := 0; en_extra := extra_fields;
                   en_comment := zs_from_string []; en_data_descriptor := gp_data_descriptor (l_flags header) |}).

(** stream.rs 90-114 *)
Definition b_stream_next (b : build) (cfg : config) (s : source) : res (option reading) * source :=
  match b_lfh_read b cfg s with
  | (Ok None, s') => (Ok None, s')
  | (Ok (Some entry), s') =>
    let length := if en_data_descriptor entry then u64_max else en_compressed_size entry in
    (Ok (Some {| rd_reader := er_new s' (en_compression entry) length; rd_entry := entry;
                 rd_descriptor := en_data_descriptor entry |}), s')
  | (Err e, s') => (Err e, s')
  | (Panic p, s') => (Panic p, s')
  end.
