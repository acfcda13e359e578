(** When the numbers of an end record spell its own signature (APPNOTE 4.3.16). *)
From Verif Require Import Base.

(** The record is 50 4b 05 06, four zeros, the count twice, size and offset of the directory, and two zeros for a comment of no bytes. One
    of the seven places where the signature can appear again. *)
Definition spells (count size offset : N) : Prop :=
  count = 0x4b50 /\ size mod 0x10000 = 0x0605 \/
  count / 0x100 = 0x50 /\ size mod 0x1000000 = 0x06054b \/
  size = 0x06054b50 \/
  size / 0x100 = 0x054b50 /\ offset mod 0x100 = 0x06 \/
  size / 0x10000 = 0x4b50 /\ offset mod 0x10000 = 0x0605 \/
  size / 0x1000000 = 0x50 /\ offset mod 0x1000000 = 0x06054b \/
  offset = 0x06054b50.

(** the numbers an end record holds *)
Definition spelled_by (n size offset : N) : Prop := spells (N.min n 0xFFFF) (N.min size 0xFFFFFFFF) (N.min offset 0xFFFFFFFF).
