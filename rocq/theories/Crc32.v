(** CRC-32 as computed by crc32fast (external crate; used through [Hasher::new], [update],
    [finalize]). Bit-at-a-time formulation of the reflected polynomial 0xEDB88320. *)
From Verif Require Import Base.

(** One step of the shift register. *)
Definition crc_bit (s : N) : N :=
  if N.odd s then N.lxor (N.div2 s) 0xEDB88320 else N.div2 s.

Definition crc_bits8 (s : N) : N :=
  crc_bit (crc_bit (crc_bit (crc_bit (crc_bit (crc_bit (crc_bit (crc_bit s))))))).

Definition crc_byte (s : N) (b : byte) : N := crc_bits8 (N.lxor s (b2n b)).

(** crc32fast::Hasher: the running register. *)
Definition hasher := N.
Definition hasher_new : hasher := 0xFFFFFFFF.
Definition hasher_update (h : hasher) (l : bytes) : hasher := fold_left crc_byte l h.
Definition hasher_finalize (h : hasher) : N := N.lxor h 0xFFFFFFFF.

(** base/write/entry_whole.rs 300-304 [crc32]. *)
Definition crc32 (l : bytes) : N := hasher_finalize (hasher_update hasher_new l).
