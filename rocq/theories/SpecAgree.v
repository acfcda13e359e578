(** When two readers take a file for the same archive. *)
From Verif Require Import Base SpecFormat SpecCrc SpecUtf8 SpecArchive SpecWrite SpecStrict SpecAccept ZString ZDate Headers Entry.

(** what another reader sees of an entry and what this crate reports of it are the same *)
Definition concurs (v : sight) (e : stored_entry) : Prop :=
  let r := v_listing v in let z := st_entry e in
  stored_bytes (en_filename z) = r_name r /\
  (N.testbit (r_flags r) 11 = true -> is_utf8 (r_name r) -> en_filename z = {| zs_enc := EUtf8; zs_raw := r_name r; zs_alt := None |}) /\
  stored_bytes (en_comment z) = r_comment r /\ method_of (r_method r) = Some (en_compression z) /\ en_crc32 z = r_crc r /\
  en_uncompressed_size z = v_usize v /\ en_compressed_size z = v_csize v /\ en_date z = {| zd_date := r_date r; zd_time := r_time r |} /\
  en_iattr z = r_iattr r /\ en_eattr z = r_eattr r /\ en_data_descriptor z = N.testbit (r_flags r) 3 /\ st_file_offset e = v_offset v.

(** The last complete end record is where its signature appears for the last time; if what stands before it is not a ZIP64 end, then it does
    not look like one at first sight, or there is nothing that could be taken from there. *)
Definition same_end (d : bytes) : Prop :=
  forall front d1 d2 n1 n2 size off cl, last_end d = Some (front, [d1; d2; n1; n2; size; off; cl]) ->
    (forall q, found_at (le 4 0x06054b50) d q -> q <= len front) /\
    (read_end64 front = None -> (forall q, found_at (le 4 0x07064b50) d q -> q + 20 <> len front) \/ n2 < 0xFFFF /\ off < 0xFFFFFFFF).
(** the end gives the number of entries *)
Definition counted (d : bytes) (n : N) : Prop := exists front size off, directory_at d = Some (front, (n, size, off)).
