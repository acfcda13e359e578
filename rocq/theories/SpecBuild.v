(** What a chain of builder calls should make of an entry: each component is what the last call that
    names it said, or what it was before. *)
From Verif Require Import Base ZString ZDate Headers ExtraField Entry Builders.

Fixpoint last_said {A B} (says : A -> option B) (l : list A) (before : B) : B :=
  match l with [] => before | c :: r => last_said says r (match says c with Some v => v | None => before end) end.

Definition says_filename (c : setter) := match c with SetFilename v => Some v | _ => None end.
Definition says_compression (c : setter) := match c with SetCompression v => Some v | _ => None end.
Definition says_crc32 (c : setter) := match c with SetCrc32 v => Some v | _ => None end.
Definition says_compressed_size (c : setter) := match c with SetCompressedSize v => Some v | _ => None end.
Definition says_uncompressed_size (c : setter) := match c with SetUncompressedSize v => Some v | _ => None end.
Definition says_level (c : setter) := match c with SetDeflateOption (DOther l) => Some (LPrecise l) | SetDeflateOption _ => Some LDefault | _ => None end.
Definition says_date (c : setter) := match c with SetLastModificationDate v => Some v | _ => None end.
Definition says_internal (c : setter) := match c with SetInternalFileAttribute v => Some v | _ => None end.
Definition says_extra (c : setter) := match c with SetExtraFields v => Some v | _ => None end.
Definition says_comment (c : setter) := match c with SetComment v => Some v | _ => None end.
(** the external attributes have two halves; the permissions are the upper one *)
Definition says_mode (c : setter) := match c with SetExternalFileAttribute v => Some (v / 65536) | SetUnixPermissions m => Some m | _ => None end.
Definition says_low (c : setter) := match c with SetExternalFileAttribute v => Some (v mod 65536) | _ => None end.

(** the arguments have the types u32, u64, u16 *)
Definition setter_wt (c : setter) : Prop :=
  match c with
  | SetCrc32 n | SetExternalFileAttribute n => n < 0x100000000
  | SetCompressedSize n | SetUncompressedSize n => n < 0x10000000000000000
  | SetInternalFileAttribute n | SetUnixPermissions n => n < 0x10000
  | SetLastModificationDate d => zd_date d < 0x10000 /\ zd_time d < 0x10000
  | _ => True
  end.
