(** spec/consts.rs, spec/header.rs, spec/parse.rs (fixed-size records), spec/compression.rs,
    spec/attribute.rs. *)
From Verif Require Import Base.

(** spec/consts.rs 4-44 *)
Definition SIGNATURE_LENGTH : N := 4.
Definition LFH_SIGNATURE : N := 0x4034b50.
Definition LFH_LENGTH : N := 26.
Definition CDH_SIGNATURE : N := 0x2014b50.
Definition CDH_LENGTH : N := 42.
Definition EOCDR_SIGNATURE : N := 0x6054b50.
Definition EOCDR_LENGTH : N := 18.
Definition ZIP64_EOCDR_SIGNATURE : N := 0x06064b50.
Definition ZIP64_EOCDL_SIGNATURE : N := 0x07064b50.
Definition ZIP64_EOCDL_LENGTH : N := 20.
Definition NON_ZIP64_MAX_SIZE : N := 0xFFFFFFFF.
Definition NON_ZIP64_MAX_NUM_FILES : N := 0xFFFF.
Definition DATA_DESCRIPTOR_SIGNATURE : N := 0x8074b50.
Definition DATA_DESCRIPTOR_LENGTH : N := 12.

(** spec/header.rs 20-24 *)
Record gpflag := { gp_encrypted : bool; gp_data_descriptor : bool; gp_filename_unicode : bool }.

(** spec/header.rs 5-16 *)
Record lfh := {
  l_version : N; l_flags : gpflag; l_compression : N; l_mod_time : N; l_mod_date : N; l_crc : N;
  l_compressed_size : N; l_uncompressed_size : N; l_file_name_length : N; l_extra_field_length : N }.

(** spec/header.rs 107-124 *)
Record cdr := {
  c_v_made_by : N; c_v_needed : N; c_flags : gpflag; c_compression : N; c_mod_time : N;
  c_mod_date : N; c_crc : N; c_compressed_size : N; c_uncompressed_size : N;
  c_file_name_length : N; c_extra_field_length : N; c_file_comment_length : N; c_disk_start : N;
  c_inter_attr : N; c_exter_attr : N; c_lh_offset : N }.

(** spec/header.rs 128-136 *)
Record eocdr := {
  e_disk_num : N; e_start_cent_dir_disk : N; e_num_of_entries_disk : N; e_num_of_entries : N;
  e_size_cent_dir : N; e_cent_dir_offset : N; e_file_comm_length : N }.

(** spec/header.rs 140-153 *)
Record z64_eocdr := {
  z_size : N; z_version_made_by : N; z_version_needed : N; z_disk_number : N;
  z_disk_number_start_of_cd : N; z_num_entries_on_disk : N; z_num_entries : N;
  z_directory_size : N; z_offset : N }.

(** spec/header.rs 157-161 *)
Record z64_eocdl := { zl_disk : N; zl_relative_offset : N; zl_total_disks : N }.

(** spec/parse.rs 32-49 *)
Definition gp_value (f : gpflag) : N :=
  N.lor (N.lor (if gp_encrypted f then 0x1 else 0) (if gp_data_descriptor f then 0x8 else 0))
        (if gp_filename_unicode f then 0x800 else 0).
Definition gp_as_slice (f : gpflag) : bytes := to_le 2 (gp_value f).

(** spec/parse.rs 111-119 *)
Definition gp_from (v : N) : gpflag :=
  {| gp_encrypted := negb (N.land v 0x1 =? 0);
     gp_data_descriptor := negb (N.shiftr (N.land v 0x8) 3 =? 0);
     gp_filename_unicode := negb (N.shiftr (N.land v 0x800) 11 =? 0) |}.

(** spec/parse.rs 12-30. [array_push!] (283-291) copies the pieces one after the other into a
    zero-initialised array, i.e. concatenates them; the lengths add up (HeadersFacts). *)
Definition lfh_as_slice (h : lfh) : bytes :=
  to_le 2 (l_version h) ++ gp_as_slice (l_flags h) ++ to_le 2 (l_compression h)
  ++ to_le 2 (l_mod_time h) ++ to_le 2 (l_mod_date h) ++ to_le 4 (l_crc h)
  ++ to_le 4 (l_compressed_size h) ++ to_le 4 (l_uncompressed_size h)
  ++ to_le 2 (l_file_name_length h) ++ to_le 2 (l_extra_field_length h).

(** spec/parse.rs 51-75 *)
Definition cdr_as_slice (h : cdr) : bytes :=
  to_le 2 (c_v_made_by h) ++ to_le 2 (c_v_needed h) ++ gp_as_slice (c_flags h)
  ++ to_le 2 (c_compression h) ++ to_le 2 (c_mod_time h) ++ to_le 2 (c_mod_date h)
  ++ to_le 4 (c_crc h) ++ to_le 4 (c_compressed_size h) ++ to_le 4 (c_uncompressed_size h)
  ++ to_le 2 (c_file_name_length h) ++ to_le 2 (c_extra_field_length h)
  ++ to_le 2 (c_file_comment_length h) ++ to_le 2 (c_disk_start h) ++ to_le 2 (c_inter_attr h)
  ++ to_le 4 (c_exter_attr h) ++ to_le 4 (c_lh_offset h).

(** spec/parse.rs 77-92 *)
Definition eocdr_as_slice (h : eocdr) : bytes :=
  to_le 2 (e_disk_num h) ++ to_le 2 (e_start_cent_dir_disk h) ++ to_le 2 (e_num_of_entries_disk h)
  ++ to_le 2 (e_num_of_entries h) ++ to_le 4 (e_size_cent_dir h) ++ to_le 4 (e_cent_dir_offset h)
  ++ to_le 2 (e_file_comm_length h).

(** spec/parse.rs 217-232 *)
Definition z64_eocdr_as_bytes (h : z64_eocdr) : bytes :=
  to_le 8 (z_size h) ++ to_le 2 (z_version_made_by h) ++ to_le 2 (z_version_needed h)
  ++ to_le 4 (z_disk_number h) ++ to_le 4 (z_disk_number_start_of_cd h)
  ++ to_le 8 (z_num_entries_on_disk h) ++ to_le 8 (z_num_entries h)
  ++ to_le 8 (z_directory_size h) ++ to_le 8 (z_offset h).

(** spec/parse.rs 254-263 *)
Definition z64_eocdl_as_bytes (h : z64_eocdl) : bytes :=
  to_le 4 (zl_disk h) ++ to_le 8 (zl_relative_offset h) ++ to_le 4 (zl_total_disks h).

(** spec/parse.rs 94-109 *)
Definition lfh_from (v : bytes) : lfh :=
  {| l_version := from_le (sub 0 2 v);
     l_flags := gp_from (from_le (sub 2 4 v));
     l_compression := from_le (sub 4 6 v);
     l_mod_time := from_le (sub 6 8 v);
     l_mod_date := from_le (sub 8 10 v);
     l_crc := from_le (sub 10 14 v);
     l_compressed_size := from_le (sub 14 18 v);
     l_uncompressed_size := from_le (sub 18 22 v);
     l_file_name_length := from_le (sub 22 24 v);
     l_extra_field_length := from_le (sub 24 26 v) |}.

(** spec/parse.rs 121-142 *)
Definition cdr_from (v : bytes) : cdr :=
  {| c_v_made_by := from_le (sub 0 2 v);
     c_v_needed := from_le (sub 2 4 v);
     c_flags := gp_from (from_le (sub 4 6 v));
     c_compression := from_le (sub 6 8 v);
     c_mod_time := from_le (sub 8 10 v);
     c_mod_date := from_le (sub 10 12 v);
     c_crc := from_le (sub 12 16 v);
     c_compressed_size := from_le (sub 16 20 v);
     c_uncompressed_size := from_le (sub 20 24 v);
     c_file_name_length := from_le (sub 24 26 v);
     c_extra_field_length := from_le (sub 26 28 v);
     c_file_comment_length := from_le (sub 28 30 v);
     c_disk_start := from_le (sub 30 32 v);
     c_inter_attr := from_le (sub 32 34 v);
     c_exter_attr := from_le (sub 34 38 v);
     c_lh_offset := from_le (sub 38 42 v) |}.

(** spec/parse.rs 144-156 *)
Definition eocdr_from (v : bytes) : eocdr :=
  {| e_disk_num := from_le (sub 0 2 v);
     e_start_cent_dir_disk := from_le (sub 2 4 v);
     e_num_of_entries_disk := from_le (sub 4 6 v);
     e_num_of_entries := from_le (sub 6 8 v);
     e_size_cent_dir := from_le (sub 8 12 v);
     e_cent_dir_offset := from_le (sub 12 16 v);
     e_file_comm_length := from_le (sub 16 18 v) |}.

(** spec/parse.rs 158-172 *)
Definition z64_eocdr_from (v : bytes) : z64_eocdr :=
  {| z_size := from_le (sub 0 8 v);
     z_version_made_by := from_le (sub 8 10 v);
     z_version_needed := from_le (sub 10 12 v);
     z_disk_number := from_le (sub 12 16 v);
     z_disk_number_start_of_cd := from_le (sub 16 20 v);
     z_num_entries_on_disk := from_le (sub 20 28 v);
     z_num_entries := from_le (sub 28 36 v);
     z_directory_size := from_le (sub 36 44 v);
     z_offset := from_le (sub 44 52 v) |}.

(** spec/parse.rs 174-184 *)
Definition z64_eocdl_from (v : bytes) : z64_eocdl :=
  {| zl_disk := from_le (sub 0 4 v);
     zl_relative_offset := from_le (sub 4 12 v);
     zl_total_disks := from_le (sub 12 16 v) |}.

(** spec/compression.rs 12-26 (all features enabled) *)
Inductive compression := Stored | Deflate | Deflate64 | Bz | Lzma | Zstd | Xz.

Definition compression_eqb (a b : compression) : bool :=
  match a, b with
  | Stored, Stored | Deflate, Deflate | Deflate64, Deflate64 | Bz, Bz | Lzma, Lzma
  | Zstd, Zstd | Xz, Xz => true
  | _, _ => false
  end.

(** spec/compression.rs 28-51 *)
Definition compression_try_from (v : N) : res compression :=
  match v with
  | 0 => Ok Stored
  | 8 => Ok Deflate
  | 9 => Ok Deflate64
  | 12 => Ok Bz
  | 14 => Ok Lzma
  | 93 => Ok Zstd
  | 95 => Ok Xz
  | _ => Err (CompressionNotSupported v)
  end.

(** spec/compression.rs 53-79 *)
Definition compression_to (c : compression) : N :=
  match c with
  | Stored => 0 | Deflate => 8 | Deflate64 => 9 | Bz => 12 | Lzma => 14 | Zstd => 93 | Xz => 95
  end.

(** spec/compression.rs 82-111: DeflateOption and async_compression::Level *)
Inductive level := LDefault | LPrecise (l : Z).
Inductive deflate_option := DNormal | DMaximum | DFast | DSuper | DOther (l : Z).
Definition into_level (o : deflate_option) : level :=
  match o with DOther l => LPrecise l | _ => LDefault end.

(** spec/attribute.rs 9-41 *)
Inductive attr_compat := Unix.
Definition attr_try_from (v : N) : res attr_compat :=
  match v with 3 => Ok Unix | _ => Err (AttributeCompatibilityNotSupported v) end.
Definition attr_to (a : attr_compat) : N := match a with Unix => 3 end.

(** spec/version.rs 15 and 39-42 *)
Definition SPEC_VERSION_MADE_BY : N := 63.
Definition as_made_by : N := N.lor (N.shiftl 3 8) SPEC_VERSION_MADE_BY.
