(** The ZIP format as APPNOTE.TXT describes it, written down independently of the model:
    little-endian numbers and records as tables of (width, value). *)
From Verif Require Import Base.

(** Byte number [i] of the little-endian form of [n] has value (n / 256^i) mod 256. *)
Definition le (k : nat) (n : N) : bytes := map (fun i => n2b (n / 256 ^ N.of_nat i)) (seq 0 k).

(** A record: its fields, each with a width in bytes, one after the other. *)
Definition record (fields : list (nat * N)) : bytes := concat (map (fun f => le (fst f) (snd f)) fields).

(** APPNOTE 4.4.4: bit 0 encrypted, bit 3 data descriptor, bit 11 UTF-8 names. *)
Definition flag_word (encrypted descriptor utf8 : bool) : N :=
  (if encrypted then 1 else 0) + (if descriptor then 8 else 0) + (if utf8 then 2048 else 0).

(** APPNOTE 4.3.7 *)
Definition local_header (version flags method time date crc csize usize nlen xlen : N) : bytes :=
  record [(4%nat, 0x04034b50); (2%nat, version); (2%nat, flags); (2%nat, method); (2%nat, time);
          (2%nat, date); (4%nat, crc); (4%nat, csize); (4%nat, usize); (2%nat, nlen); (2%nat, xlen)].

(** APPNOTE 4.3.12 *)
Definition central_header (made_by needed flags method time date crc csize usize nlen xlen clen
                           disk iattr eattr offset : N) : bytes :=
  record [(4%nat, 0x02014b50); (2%nat, made_by); (2%nat, needed); (2%nat, flags); (2%nat, method);
          (2%nat, time); (2%nat, date); (4%nat, crc); (4%nat, csize); (4%nat, usize); (2%nat, nlen);
          (2%nat, xlen); (2%nat, clen); (2%nat, disk); (2%nat, iattr); (4%nat, eattr); (4%nat, offset)].

(** APPNOTE 4.3.9, with the optional signature *)
Definition data_descriptor32 (crc csize usize : N) : bytes :=
  record [(4%nat, 0x08074b50); (4%nat, crc); (4%nat, csize); (4%nat, usize)].

(** APPNOTE 4.3.14 (version 1, no extensible data: 44 bytes follow the size field) *)
Definition zip64_end_record (made_by needed disk cd_disk entries_disk entries cd_size cd_offset : N) : bytes :=
  record [(4%nat, 0x06064b50); (8%nat, 44); (2%nat, made_by); (2%nat, needed); (4%nat, disk);
          (4%nat, cd_disk); (8%nat, entries_disk); (8%nat, entries); (8%nat, cd_size); (8%nat, cd_offset)].

(** APPNOTE 4.3.15 *)
Definition zip64_end_locator (disk offset disks : N) : bytes :=
  record [(4%nat, 0x07064b50); (4%nat, disk); (8%nat, offset); (4%nat, disks)].

(** APPNOTE 4.3.16 *)
Definition end_record (disk cd_disk entries_disk entries cd_size cd_offset clen : N) : bytes :=
  record [(4%nat, 0x06054b50); (2%nat, disk); (2%nat, cd_disk); (2%nat, entries_disk);
          (2%nat, entries); (4%nat, cd_size); (4%nat, cd_offset); (2%nat, clen)].

(** APPNOTE 4.5.1: an extra field *)
Definition extra (id : N) (payload : bytes) : bytes :=
  record [(2%nat, id); (2%nat, len payload)] ++ payload.
