(** base/read/mod.rs, base/read/io/combined_record.rs, base/read/io/mod.rs, utils.rs,
    file/mod.rs: opening an archive. *)
From Verif Require Import Base Crc32 Utf8 ZString ZDate Headers ExtraField Entry IO Locator.

(** file/mod.rs 11-15 *)
Record zfile := { f_entries : list stored_entry; f_zip64 : bool; f_comment : zstring }.

(** combined_record.rs 9-19 (the two version fields are never used and are omitted) *)
Record combined := {
  cb_disk_number : N; cb_disk_number_start_of_cd : N; cb_num_entries_on_disk : N;
  cb_num_entries : N; cb_directory_size : N; cb_offset : N; cb_comment_length : N }.

(** combined_record.rs 54-67 *)
Definition combined_from (e : eocdr) : combined :=
  {| cb_disk_number := e_disk_num e; cb_disk_number_start_of_cd := e_start_cent_dir_disk e;
     cb_num_entries_on_disk := e_num_of_entries_disk e; cb_num_entries := e_num_of_entries e;
     cb_directory_size := e_size_cent_dir e; cb_offset := e_cent_dir_offset e;
     cb_comment_length := e_file_comm_length e |}.

(** combined_record.rs 26-50 *)
Definition combine (e : eocdr) (z : z64_eocdr) : combined :=
  let c := combined_from e in
  {| cb_disk_number := if e_disk_num e =? 65535 then z_disk_number z else cb_disk_number c;
     cb_disk_number_start_of_cd :=
       if e_start_cent_dir_disk e =? 65535 then z_disk_number_start_of_cd z else cb_disk_number_start_of_cd c;
     cb_num_entries_on_disk :=
       if e_num_of_entries_disk e =? 65535 then z_num_entries_on_disk z else cb_num_entries_on_disk c;
     cb_num_entries := if e_num_of_entries e =? 65535 then z_num_entries z else cb_num_entries c;
     cb_directory_size := if e_size_cent_dir e =? 4294967295 then z_directory_size z else cb_directory_size c;
     cb_offset := if e_cent_dir_offset e =? 4294967295 then z_offset z else cb_offset c;
     cb_comment_length := cb_comment_length c |}.

(** utils.rs 8-18 *)
Definition assert_signature (expected : N) : SM source unit :=
  b <- read_exact 4 ;;
  let actual := from_le b in
  if actual =? expected then ret tt else fail (UnexpectedHeaderError actual expected).

(** spec/parse.rs 186-215: [from_reader]s *)
Definition lfh_from_reader : SM source lfh := b <- read_exact 26 ;; ret (lfh_from b).
Definition eocdr_from_reader : SM source eocdr := b <- read_exact 18 ;; ret (eocdr_from b).
Definition cdr_from_reader : SM source cdr := b <- read_exact 42 ;; ret (cdr_from b).
Definition z64_eocdr_from_reader : SM source z64_eocdr := b <- read_exact 52 ;; ret (z64_eocdr_from b).

(** spec/parse.rs 238-252 *)
Definition z64_eocdl_try_from_reader : SM source (option z64_eocdl) :=
  b <- read_exact 4 ;;
  if negb (from_le b =? ZIP64_EOCDL_SIGNATURE) then ret None
  else b <- read_exact 16 ;; ret (Some (z64_eocdl_from b)).

(** base/read/io/mod.rs 17-22 *)
Definition read_string (length : N) (e : encoding) : SM source zstring :=
  b <- read_bytes length ;; ret (zs_new b e).

(** base/read/mod.rs 99-106 *)
Fixpoint get_zip64_extra_field (l : list extra_field) : option zip64_field :=
  match l with
  | [] => None
  | XZip64 z :: _ => Some z
  | _ :: r => get_zip64_extra_field r
  end.

(** base/read/mod.rs 119-137 *)
Definition get_combined_sizes (usize csize : N) (x : option zip64_field) : N * N :=
  match x with
  | None => (usize, csize)
  | Some z =>
    (match zf_uncompressed z with Some s => s | None => usize end,
     match zf_compressed z with Some s => s | None => csize end)
  end.

(** the [find_map] of base/read/mod.rs 266-275 / 296-305: [Some (Some s)] is [Some(Ok(s))],
    [Some None] is [Some(Err(_))] *)
Definition try_unicode (basic : bytes) (u : unicode_field) : option (option bytes) :=
  match u with
  | UV1 crc unicode => if crc =? crc32 basic then Some (if utf8_valid unicode then Some unicode else None)
                       else None
  | UUnknown _ _ => None
  end.
Fixpoint find_ucomment (basic : bytes) (l : list extra_field) : option (option bytes) :=
  match l with
  | [] => None
  | XComment u :: r => match try_unicode basic u with Some x => Some x | None => find_ucomment basic r end
  | _ :: r => find_ucomment basic r
  end.
Fixpoint find_upath (basic : bytes) (l : list extra_field) : option (option bytes) :=
  match l with
  | [] => None
  | XPath u :: r => match try_unicode basic u with Some x => Some x | None => find_upath basic r end
  | _ :: r => find_upath basic r
  end.

Definition detect_with (basic : bytes) (basic_is_utf8 : bool) (found : option (option bytes)) : zstring :=
  if basic_is_utf8 then zs_new basic EUtf8
  else match found with
       | Some (Some s) => zs_new_with_alternative s basic
       | _ => if is_ascii basic then zs_from_string basic else zs_new basic ERaw
       end.

(** base/read/mod.rs 262-290 *)
Definition detect_comment (basic : bytes) (basic_is_utf8 : bool) (l : list extra_field) : zstring :=
  detect_with basic basic_is_utf8 (find_ucomment basic l).
(** base/read/mod.rs 292-320 *)
Definition detect_filename (basic : bytes) (basic_is_utf8 : bool) (l : list extra_field) : zstring :=
  detect_with basic basic_is_utf8 (find_upath basic l).

(** base/read/mod.rs 139-196 *)
Definition cd_record (cfg : config) : SM source stored_entry :=
  assert_signature CDH_SIGNATURE ;;;
  header <- cdr_from_reader ;;
  let header_size := SIGNATURE_LENGTH + LFH_LENGTH in
  let trailing_size := c_file_name_length header + c_extra_field_length header in
  filename_basic <- read_bytes (c_file_name_length header) ;;
  compression <- lift (compression_try_from (c_compression header)) ;;
  extra_field <- read_bytes (c_extra_field_length header) ;;
  extra_fields <- lift (parse_extra_fields cfg extra_field (c_uncompressed_size header) (c_compressed_size header)) ;;
  comment_basic <- read_bytes (c_file_comment_length header) ;;
  let z := get_zip64_extra_field extra_fields in
  let '(uncompressed_size, compressed_size) :=
    get_combined_sizes (c_uncompressed_size header) (c_compressed_size header) z in
  let file_offset :=
    match z with
    | Some z => if c_lh_offset header =? NON_ZIP64_MAX_SIZE
                then match zf_offset z with Some o => o | None => c_lh_offset header end
                else c_lh_offset header
    | None => c_lh_offset header
    end in
  let filename := detect_filename filename_basic (gp_filename_unicode (c_flags header)) extra_fields in
  let comment := detect_comment comment_basic (gp_filename_unicode (c_flags header)) extra_fields in
  ret {| st_entry :=
           {| en_filename := filename; en_compression := compression; en_level := LDefault;
              en_crc32 := c_crc header; en_uncompressed_size := uncompressed_size;
              en_compressed_size := compressed_size; en_attr_compat := Unix;
              en_date := {| zd_date := c_mod_date header; zd_time := c_mod_time header |};
              en_iattr := c_inter_attr header; en_eattr := c_exter_attr header;
              en_extra := extra_fields; en_comment := comment;
              en_data_descriptor := gp_data_descriptor (c_flags header) |};
         st_file_offset := file_offset; st_header_size := header_size + trailing_size |}.

(** base/read/mod.rs 91-94: [for _ in 0..num_of_entries]. Each record takes at least 46 bytes of
    the source, so the length of the data bounds the number of successful iterations. *)
Fixpoint cd_loop (cfg : config) (fuel : nat) (n : N) : SM source (list stored_entry) :=
  match fuel with
  | O => lift (Panic PFuel)
  | S f =>
    if n =? 0 then ret []
    else e <- cd_record cfg ;; r <- cd_loop cfg f (n - 1) ;; ret (e :: r)
  end.

Definition isize_max : N := 9223372036854775807.

(** [Vec::with_capacity(n)] of StoredZipEntry: panics when the byte size exceeds isize::MAX.
    (Failure to allocate less than that aborts the process; memory is not modelled.) *)
Definition with_capacity (cfg : config) (n : N) : res unit :=
  if n * entry_mem_size cfg <=? isize_max then Ok tt else Panic PCapacity.

(** base/read/mod.rs 84-97 [cd] *)
Definition cd (cfg : config) (num_of_entries : N) : SM source (list stored_entry) :=
  lift (with_capacity cfg num_of_entries) ;;;
  s <- get ;;
  cd_loop cfg (S (length (s_data s))) num_of_entries.

(** base/read/mod.rs 39-82 [file] *)
Definition file (cfg : config) : SM source zfile :=
  eocdr_offset <- eocdr_locate ;;
  seek_start eocdr_offset ;;;
  eocdr <- eocdr_from_reader ;;
  comment <- read_string (e_file_comm_length eocdr) EUtf8 ;;
  '(comb, zip64) <-
    (if eocdr_offset <? ZIP64_EOCDL_LENGTH + SIGNATURE_LENGTH
     then ret (combined_from eocdr, false)
     else
       seek_start (eocdr_offset - (ZIP64_EOCDL_LENGTH + SIGNATURE_LENGTH)) ;;;
       zip64_locator <- z64_eocdl_try_from_reader ;;
       match zip64_locator with
       | Some locator =>
         p <- lift (uadd cfg (zl_relative_offset locator) SIGNATURE_LENGTH) ;;
         seek_start p ;;;
         zip64_eocdr <- z64_eocdr_from_reader ;;
         ret (combine eocdr zip64_eocdr, true)
       | None => ret (combined_from eocdr, false)
       end) ;;
  if negb (cb_disk_number comb =? cb_disk_number_start_of_cd comb)
     || negb (cb_num_entries comb =? cb_num_entries_on_disk comb)
  then fail (FeatureNotSupported FSplit)
  else
    seek_start (cb_offset comb) ;;;
    entries <- cd cfg (cb_num_entries comb) ;;
    ret {| f_entries := entries; f_zip64 := zip64; f_comment := comment |}.

(** base/read/mod.rs 198-260 [lfh] *)
Definition lfh_read (cfg : config) : SM source (option zentry) :=
  sig <- read_exact 4 ;;
  let signature := from_le sig in
  if signature =? CDH_SIGNATURE then ret None
  else if negb (signature =? LFH_SIGNATURE) then fail (UnexpectedHeaderError signature LFH_SIGNATURE)
  else
    header <- lfh_from_reader ;;
    filename_basic <- read_bytes (l_file_name_length header) ;;
    compression <- lift (compression_try_from (l_compression header)) ;;
    extra_field <- read_bytes (l_extra_field_length header) ;;
    extra_fields <- lift (parse_extra_fields cfg extra_field (l_uncompressed_size header) (l_compressed_size header)) ;;
    let '(uncompressed_size, compressed_size) :=
      get_combined_sizes (l_uncompressed_size header) (l_compressed_size header)
                         (get_zip64_extra_field extra_fields) in
    if gp_data_descriptor (l_flags header) && compression_eqb compression Stored
    then fail (FeatureNotSupported FStreamStored)
    else if gp_encrypted (l_flags header) then fail (FeatureNotSupported FEncryption)
    else
      let filename := detect_filename filename_basic (gp_filename_unicode (l_flags header)) extra_fields in
      ret (Some {| en_filename := filename; en_compression := compression; en_level := LDefault;
                   en_crc32 := l_crc header; en_uncompressed_size := uncompressed_size;
                   en_compressed_size := compressed_size; en_attr_compat := Unix;
                   en_date := {| zd_date := l_mod_date header; zd_time := l_mod_time header |};
                   en_iattr := 0; en_eattr := 0; en_extra := extra_fields;
                   en_comment := zs_from_string []; en_data_descriptor := gp_data_descriptor (l_flags header) |}).

(** entry/mod.rs 188-210 [seek_to_data_offset] *)
Definition seek_to_data_offset (e : stored_entry) : SM source unit :=
  seek_start (st_file_offset e) ;;;
  sig <- read_exact 4 ;;
  let signature := from_le sig in
  if negb (signature =? LFH_SIGNATURE) then fail (UnexpectedHeaderError signature LFH_SIGNATURE)
  else
    header <- lfh_from_reader ;;
    seek_current (l_file_name_length header + l_extra_field_length header) ;;;
    ret tt.
