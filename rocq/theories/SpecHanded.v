(** Data compressed beforehand, and how it should be handed over. *)
From Verif Require Import Base SpecCrc Entry Writer.

(** the entry with length and check value of its content put in, as the calls for precompressed data expect it *)
Definition described (e : zentry) (content : bytes) : zentry := set_crc32 (set_uncompressed_size e (len content)) (crc32_spec content).
Definition describes (e : zentry) (content : bytes) : Prop := en_uncompressed_size e = len content /\ en_crc32 e = crc32_spec content.
