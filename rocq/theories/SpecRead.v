(** What reading an entry should deliver. *)
From Verif Require Import Base SpecFormat SpecCrc SpecArchive Headers Entry EntryReader.

(** the bytes the archive holds for an entry *)
Definition region (d : bytes) (e : stored_entry) : bytes :=
  firstn (N.to_nat (en_compressed_size (st_entry e))) (skipn (N.to_nat (data_start d (st_file_offset e))) d).

(** what they decode to, and whether they are a complete compressed stream *)
Definition decoded (cd : codec) (c : compression) (w : bytes) : bytes * bool :=
  match c with
  | Stored => (w, true)
  | _ => let '(out, fin) := dec cd c w in (out, match fin with Some _ => true | None => false end)
  end.

(** a whole local header is where the entry says *)
Definition has_local_header (d : bytes) (e : stored_entry) : Prop :=
  found_at (le 4 0x04034b50) d (st_file_offset e) /\ st_file_offset e + 30 <= len d /\
  data_start d (st_file_offset e) <= u64_max.

(** the checked content of an entry *)
Definition checked_content (cd : codec) (d : bytes) (e : stored_entry) : res bytes :=
  match decoded cd (en_compression (st_entry e)) (region d e) with
  | (b, true) => if crc32_spec b =? en_crc32 (st_entry e) then Ok b else Err CRC32CheckError
  | (_, false) => Err (UpstreamReadError InvalidData)
  end.

(** a decoder does not consume more than it is given *)
Definition dec_within (cd : codec) : Prop := forall c w out k, dec cd c w = (out, Some k) -> k <= len w.
