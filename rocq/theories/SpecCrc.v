(** CRC-32 by its textbook definition: the remainder of polynomial long division over GF(2)
    (ISO 3309 / ITU-T V.42 / zlib): generator x^32 + (0x04C11DB7), bits of each byte least
    significant first, the first 32 bits complemented, 32 zero bits appended, the remainder
    complemented, and its first (highest) coefficient stored as the least significant bit. *)
From Verif Require Import Base.

(** Bits of a byte, least significant first. *)
Definition byte_bits (b : byte) : list bool := map (fun i => N.testbit (b2n b) (N.of_nat i)) (seq 0 8).
Definition message_bits (l : bytes) : list bool := concat (map byte_bits l).

(** Coefficients x^31 ... x^0 of the generator (the leading x^32 is implicit). *)
Definition generator : list bool := map (fun i => N.testbit 0x04C11DB7 (N.of_nat (31 - i))) (seq 0 32).

(** Add (exclusive-or) [p] onto the front of [d]; [d] is assumed at least as long. *)
Fixpoint add_front (p d : list bool) : list bool :=
  match p, d with
  | x :: p', y :: d' => xorb x y :: add_front p' d'
  | _, _ => d
  end.

(** Long division: bring down one coefficient per step; what is left after all steps is the
    remainder. *)
Fixpoint long_division (steps : nat) (d : list bool) : list bool :=
  match steps, d with
  | O, _ => d
  | S k, b :: r => long_division k (if b then add_front generator r else r)
  | S _, [] => []
  end.

Definition ones32 : list bool := repeat true 32.

(** Number with the given bits, least significant first. *)
Fixpoint of_bits (l : list bool) : N :=
  match l with [] => 0 | b :: r => (if b then 1 else 0) + 2 * of_bits r end.

Definition crc32_spec (l : bytes) : N :=
  let dividend := add_front ones32 (message_bits l ++ repeat false 32) in
  of_bits (map negb (long_division (length (message_bits l)) dividend)).
