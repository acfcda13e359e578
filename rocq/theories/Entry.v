(** entry/mod.rs, entry/builder.rs, spec/version.rs. *)
From Verif Require Import Base ZString ZDate Headers ExtraField.

(** entry/mod.rs 26-48 *)
Record zentry := {
  en_filename : zstring; en_compression : compression; en_level : level; en_crc32 : N;
  en_uncompressed_size : N; en_compressed_size : N; en_attr_compat : attr_compat;
  en_date : zdate; en_iattr : N; en_eattr : N; en_extra : list extra_field;
  en_comment : zstring; en_data_descriptor : bool }.

(** entry/mod.rs 57-81 [ZipEntry::new] *)
Definition entry_new (filename : zstring) (c : compression) : zentry :=
  {| en_filename := filename; en_compression := c; en_level := LDefault; en_crc32 := 0;
     en_uncompressed_size := 0; en_compressed_size := 0; en_attr_compat := Unix;
     en_date := zdate_default; en_iattr := 0; en_eattr := 0; en_extra := [];
     en_comment := zs_from_string []; en_data_descriptor := false |}.

(** entry/mod.rs 147-153 [unix_permissions] *)
Definition entry_unix_permissions (e : zentry) : option N :=
  match en_attr_compat e with Unix => Some (as_u16 (N.shiftr (en_eattr e) 16)) end.

(** [str::ends_with('/')]: '/' is a single byte in UTF-8. *)
Definition ends_with_slash (l : bytes) : bool :=
  match rev l with b :: _ => b2n b =? 0x2F | [] => false end.

(** entry/mod.rs 156-158 [dir] *)
Definition entry_dir (e : zentry) : res bool :=
  let? s := zs_as_str (en_filename e) in Ok (ends_with_slash s).

(** entry/mod.rs 166-171 *)
Record stored_entry := { st_entry : zentry; st_file_offset : N; st_header_size : N }.

(** spec/version.rs 18-36 [as_needed_to_extract] *)
Definition as_needed_to_extract (e : zentry) : N :=
  let version := match en_compression e with
                 | Deflate => 20 | Deflate64 => 21 | Bz => 46 | Lzma => 63 | _ => 10
                 end in
  match entry_dir e with Ok true => N.max version 20 | _ => version end.

(** entry/builder.rs 17-130: setters. The builder is a newtype around the entry. *)
Definition set_filename (e : zentry) (v : zstring) : zentry :=
  {| en_filename := v; en_compression := en_compression e; en_level := en_level e; en_crc32 := en_crc32 e;
     en_uncompressed_size := en_uncompressed_size e; en_compressed_size := en_compressed_size e;
     en_attr_compat := en_attr_compat e; en_date := en_date e; en_iattr := en_iattr e; en_eattr := en_eattr e;
     en_extra := en_extra e; en_comment := en_comment e; en_data_descriptor := en_data_descriptor e |}.
Definition set_compression (e : zentry) (v : compression) : zentry :=
  {| en_filename := en_filename e; en_compression := v; en_level := en_level e; en_crc32 := en_crc32 e;
     en_uncompressed_size := en_uncompressed_size e; en_compressed_size := en_compressed_size e;
     en_attr_compat := en_attr_compat e; en_date := en_date e; en_iattr := en_iattr e; en_eattr := en_eattr e;
     en_extra := en_extra e; en_comment := en_comment e; en_data_descriptor := en_data_descriptor e |}.
Definition set_crc32 (e : zentry) (v : N) : zentry :=
  {| en_filename := en_filename e; en_compression := en_compression e; en_level := en_level e; en_crc32 := v;
     en_uncompressed_size := en_uncompressed_size e; en_compressed_size := en_compressed_size e;
     en_attr_compat := en_attr_compat e; en_date := en_date e; en_iattr := en_iattr e; en_eattr := en_eattr e;
     en_extra := en_extra e; en_comment := en_comment e; en_data_descriptor := en_data_descriptor e |}.
Definition set_compressed_size (e : zentry) (v : N) : zentry :=
  {| en_filename := en_filename e; en_compression := en_compression e; en_level := en_level e; en_crc32 := en_crc32 e;
     en_uncompressed_size := en_uncompressed_size e; en_compressed_size := v;
     en_attr_compat := en_attr_compat e; en_date := en_date e; en_iattr := en_iattr e; en_eattr := en_eattr e;
     en_extra := en_extra e; en_comment := en_comment e; en_data_descriptor := en_data_descriptor e |}.
Definition set_uncompressed_size (e : zentry) (v : N) : zentry :=
  {| en_filename := en_filename e; en_compression := en_compression e; en_level := en_level e; en_crc32 := en_crc32 e;
     en_uncompressed_size := v; en_compressed_size := en_compressed_size e;
     en_attr_compat := en_attr_compat e; en_date := en_date e; en_iattr := en_iattr e; en_eattr := en_eattr e;
     en_extra := en_extra e; en_comment := en_comment e; en_data_descriptor := en_data_descriptor e |}.
Definition set_level (e : zentry) (v : level) : zentry :=
  {| en_filename := en_filename e; en_compression := en_compression e; en_level := v; en_crc32 := en_crc32 e;
     en_uncompressed_size := en_uncompressed_size e; en_compressed_size := en_compressed_size e;
     en_attr_compat := en_attr_compat e; en_date := en_date e; en_iattr := en_iattr e; en_eattr := en_eattr e;
     en_extra := en_extra e; en_comment := en_comment e; en_data_descriptor := en_data_descriptor e |}.
Definition set_attr_compat (e : zentry) (v : attr_compat) : zentry :=
  {| en_filename := en_filename e; en_compression := en_compression e; en_level := en_level e; en_crc32 := en_crc32 e;
     en_uncompressed_size := en_uncompressed_size e; en_compressed_size := en_compressed_size e;
     en_attr_compat := v; en_date := en_date e; en_iattr := en_iattr e; en_eattr := en_eattr e;
     en_extra := en_extra e; en_comment := en_comment e; en_data_descriptor := en_data_descriptor e |}.
Definition set_date (e : zentry) (v : zdate) : zentry :=
  {| en_filename := en_filename e; en_compression := en_compression e; en_level := en_level e; en_crc32 := en_crc32 e;
     en_uncompressed_size := en_uncompressed_size e; en_compressed_size := en_compressed_size e;
     en_attr_compat := en_attr_compat e; en_date := v; en_iattr := en_iattr e; en_eattr := en_eattr e;
     en_extra := en_extra e; en_comment := en_comment e; en_data_descriptor := en_data_descriptor e |}.
Definition set_iattr (e : zentry) (v : N) : zentry :=
  {| en_filename := en_filename e; en_compression := en_compression e; en_level := en_level e; en_crc32 := en_crc32 e;
     en_uncompressed_size := en_uncompressed_size e; en_compressed_size := en_compressed_size e;
     en_attr_compat := en_attr_compat e; en_date := en_date e; en_iattr := v; en_eattr := en_eattr e;
     en_extra := en_extra e; en_comment := en_comment e; en_data_descriptor := en_data_descriptor e |}.
Definition set_eattr (e : zentry) (v : N) : zentry :=
  {| en_filename := en_filename e; en_compression := en_compression e; en_level := en_level e; en_crc32 := en_crc32 e;
     en_uncompressed_size := en_uncompressed_size e; en_compressed_size := en_compressed_size e;
     en_attr_compat := en_attr_compat e; en_date := en_date e; en_iattr := en_iattr e; en_eattr := v;
     en_extra := en_extra e; en_comment := en_comment e; en_data_descriptor := en_data_descriptor e |}.
Definition set_extra (e : zentry) (v : list extra_field) : zentry :=
  {| en_filename := en_filename e; en_compression := en_compression e; en_level := en_level e; en_crc32 := en_crc32 e;
     en_uncompressed_size := en_uncompressed_size e; en_compressed_size := en_compressed_size e;
     en_attr_compat := en_attr_compat e; en_date := en_date e; en_iattr := en_iattr e; en_eattr := en_eattr e;
     en_extra := v; en_comment := en_comment e; en_data_descriptor := en_data_descriptor e |}.
Definition set_comment (e : zentry) (v : zstring) : zentry :=
  {| en_filename := en_filename e; en_compression := en_compression e; en_level := en_level e; en_crc32 := en_crc32 e;
     en_uncompressed_size := en_uncompressed_size e; en_compressed_size := en_compressed_size e;
     en_attr_compat := en_attr_compat e; en_date := en_date e; en_iattr := en_iattr e; en_eattr := en_eattr e;
     en_extra := en_extra e; en_comment := v; en_data_descriptor := en_data_descriptor e |}.

(** entry/builder.rs 58-62 [deflate_option] *)
Definition set_deflate_option (e : zentry) (o : deflate_option) : zentry := set_level e (into_level o).

(** entry/builder.rs 103-108 [unix_permissions] *)
Definition set_unix_permissions (e : zentry) (mode : N) : zentry :=
  match en_attr_compat e with
  | Unix => set_eattr e (N.lor (N.land (en_eattr e) 0xFFFF) (N.shiftl mode 16))
  end.
