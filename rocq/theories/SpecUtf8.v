(** UTF-8 by definition (RFC 3629): the concatenated encodings of Unicode scalar values. *)
From Verif Require Import Base.

Definition scalar (c : N) : Prop := c < 0xD800 \/ (0xE000 <= c /\ c < 0x110000).

Definition encode_scalar (c : N) : bytes :=
  if c <? 0x80 then [n2b c]
  else if c <? 0x800 then [n2b (0xC0 + c / 64); n2b (0x80 + c mod 64)]
  else if c <? 0x10000 then [n2b (0xE0 + c / 4096); n2b (0x80 + c / 64 mod 64); n2b (0x80 + c mod 64)]
  else [n2b (0xF0 + c / 262144); n2b (0x80 + c / 4096 mod 64); n2b (0x80 + c / 64 mod 64); n2b (0x80 + c mod 64)].

(** [l] is the UTF-8 encoding of some text. *)
Definition is_utf8 (l : bytes) : Prop :=
  exists cs, Forall scalar cs /\ l = concat (map encode_scalar cs).
