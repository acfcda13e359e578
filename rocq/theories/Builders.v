(** entry/builder.rs and file/builder.rs: what callers can do with the builders. *)
From Verif Require Import Base ZString ZDate Headers ExtraField Entry Reader.

(** entry/builder.rs 26-108: one call *)
Inductive setter :=
| SetFilename (s : zstring)
| SetCompression (c : compression)
| SetCrc32 (n : N)
| SetCompressedSize (n : N)
| SetUncompressedSize (n : N)
| SetDeflateOption (o : deflate_option)
| SetAttributeCompatibility (a : attr_compat)
| SetLastModificationDate (d : zdate)
| SetInternalFileAttribute (n : N)
| SetExternalFileAttribute (n : N)
| SetExtraFields (l : list extra_field)
| SetComment (s : zstring)
| SetUnixPermissions (mode : N).
Definition call_setter (e : zentry) (c : setter) : zentry :=
  match c with
  | SetFilename v => set_filename e v
  | SetCompression v => set_compression e v
  | SetCrc32 v => set_crc32 e v
  | SetCompressedSize v => set_compressed_size e v
  | SetUncompressedSize v => set_uncompressed_size e v
  | SetDeflateOption v => set_deflate_option e v
  | SetAttributeCompatibility v => set_attr_compat e v
  | SetLastModificationDate v => set_date e v
  | SetInternalFileAttribute v => set_iattr e v
  | SetExternalFileAttribute v => set_eattr e v
  | SetExtraFields v => set_extra e v
  | SetComment v => set_comment e v
  | SetUnixPermissions v => set_unix_permissions e v
  end.
(** a chain of calls, and [build] (110-127) *)
Definition built (e : zentry) (l : list setter) : zentry := fold_left call_setter l e.

(** file/builder.rs 15-19 [default], 27-30 [comment] *)
Definition file_builder : zfile :=
  {| f_entries := []; f_zip64 := false; f_comment := {| zs_enc := EUtf8; zs_raw := []; zs_alt := None |} |}.
Definition file_builder_comment (f : zfile) (c : zstring) : zfile :=
  {| f_entries := f_entries f; f_zip64 := f_zip64 f; f_comment := c |}.
