(** A decoder for DEFLATE (RFC 1951), and an encoder that emits stored blocks. async-compression is not part
    of the crate: this codec is an instance of [codec] that speaks the real format, so that real archives can
    be read in the model. *)
From Verif Require Import Base Headers EntryReader.

(** the bits left of the current byte, low bits first, and the bytes behind it *)
Definition bitstream : Type := list bool * bytes.
Definition byte_bits (b : byte) : list bool := map (N.testbit (b2n b)) [0; 1; 2; 3; 4; 5; 6; 7].
Definition get_bit (s : bitstream) : option (bool * bitstream) :=
  match s with
  | (b :: p, r) => Some (b, (p, r))
  | ([], x :: r) => match byte_bits x with b :: p => Some (b, (p, r)) | [] => None end
  | ([], []) => None
  end.
(** [n] bits, the first one lowest *)
Fixpoint get_bits (n : nat) (s : bitstream) : option (N * bitstream) :=
  match n with
  | O => Some (0, s)
  | S n =>
    match get_bit s with
    | Some (b, s) => match get_bits n s with Some (v, s) => Some (2 * v + N.b2n b, s) | None => None end
    | None => None
    end
  end.

(** a canonical Huffman code: for each length from 1 on, the symbols of that length in order *)
Definition huffman := list (list N).
Fixpoint number_from (k : N) (l : list N) : list (N * N) :=
  match l with [] => [] | x :: r => (k, x) :: number_from (k + 1) r end.
Definition huffman_of (lengths : list N) : huffman :=
  map (fun n => map fst (filter (fun p => snd p =? n) (number_from 0 lengths))) [1; 2; 3; 4; 5; 6; 7; 8; 9; 10; 11; 12; 13; 14; 15].
Fixpoint get_symbol (h : huffman) (code first : N) (s : bitstream) : option (N * bitstream) :=
  match h with
  | [] => None
  | syms :: h =>
    match get_bit s with
    | None => None
    | Some (b, s) =>
      let code := 2 * code + N.b2n b in
      let first := 2 * first in
      if code - first <? len syms
      then match nth_error syms (N.to_nat (code - first)) with Some x => Some (x, s) | None => None end
      else get_symbol h code (first + len syms) s
    end
  end.

(** RFC 1951 3.2.5: base and extra bits of lengths (from 257) and distances *)
Definition length_codes : list (N * N) :=
  [(3, 0); (4, 0); (5, 0); (6, 0); (7, 0); (8, 0); (9, 0); (10, 0); (11, 1); (13, 1); (15, 1); (17, 1); (19, 2); (23, 2); (27, 2); (31, 2);
   (35, 3); (43, 3); (51, 3); (59, 3); (67, 4); (83, 4); (99, 4); (115, 4); (131, 5); (163, 5); (195, 5); (227, 5); (258, 0)].
Definition distance_codes : list (N * N) :=
  [(1, 0); (2, 0); (3, 0); (4, 0); (5, 1); (7, 1); (9, 2); (13, 2); (17, 3); (25, 3); (33, 4); (49, 4); (65, 5); (97, 5); (129, 6); (193, 6);
   (257, 7); (385, 7); (513, 8); (769, 8); (1025, 9); (1537, 9); (2049, 10); (3073, 10); (4097, 11); (6145, 11); (8193, 12); (12289, 12);
   (16385, 13); (24577, 13)].
Definition get_coded (t : list (N * N)) (code : N) (s : bitstream) : option (N * bitstream) :=
  match nth_error t (N.to_nat code) with
  | None => None
  | Some (base, extra) => match get_bits (N.to_nat extra) s with Some (v, s) => Some (base + v, s) | None => None end
  end.
(** the output so far is kept backwards *)
Fixpoint copy_back (n : nat) (distance : N) (out : bytes) : option bytes :=
  match n with
  | O => Some out
  | S n => match nth_error out (N.to_nat (distance - 1)) with Some b => copy_back n distance (b :: out) | None => None end
  end.
(** one compressed block: the output, and what follows if the block ends *)
Fixpoint codes (fuel : nat) (lit dist : huffman) (out : bytes) (s : bitstream) : bytes * option bitstream :=
  match fuel with
  | O => (out, None)
  | S f =>
    match get_symbol lit 0 0 s with
    | None => (out, None)
    | Some (x, s) =>
      if x <? 256 then codes f lit dist (n2b x :: out) s
      else if x =? 256 then (out, Some s)
      else
        match get_coded length_codes (x - 257) s with
        | None => (out, None)
        | Some (n, s) =>
          match get_symbol dist 0 0 s with
          | None => (out, None)
          | Some (y, s) =>
            match get_coded distance_codes y s with
            | None => (out, None)
            | Some (d, s) =>
              match copy_back (N.to_nat n) d out with None => (out, None) | Some out => codes f lit dist out s end
            end
          end
        end
    end
  end.

(** 3.2.6 *)
Definition fixed_lit : huffman := huffman_of (repeat 8 144 ++ repeat 9 112 ++ repeat 7 24 ++ repeat 8 8).
Definition fixed_dist : huffman := huffman_of (repeat 5 30).
(** 3.2.7 *)
Definition clc_order : list nat := [16; 17; 18; 0; 8; 7; 9; 6; 10; 5; 11; 4; 12; 3; 13; 2; 14; 1; 15]%nat.
Fixpoint get_lengths3 (n : nat) (s : bitstream) : option (list N * bitstream) :=
  match n with
  | O => Some ([], s)
  | S n =>
    match get_bits 3 s with
    | None => None
    | Some (v, s) => match get_lengths3 n s with Some (l, s) => Some (v :: l, s) | None => None end
    end
  end.
Definition clc_lengths (l : list N) : list N :=
  map (fun i => match find (fun p => Nat.eqb (fst p) i) (combine clc_order l) with Some (_, v) => v | None => 0 end) (seq 0 19).
(** [acc] holds the lengths so far, backwards *)
Fixpoint get_lengths (fuel : nat) (h : huffman) (n : N) (acc : list N) (s : bitstream) : option (list N * bitstream) :=
  match fuel with
  | O => None
  | S f =>
    if n <=? len acc then (if n =? len acc then Some (rev acc, s) else None)
    else
      match get_symbol h 0 0 s with
      | None => None
      | Some (x, s) =>
        if x <? 16 then get_lengths f h n (x :: acc) s
        else
          let again v (bits : nat) base :=
            match get_bits bits s with
            | None => None
            | Some (k, s) => get_lengths f h n (repeat v (N.to_nat (base + k)) ++ acc) s
            end in
          if x =? 16 then match acc with [] => None | v :: _ => again v 2%nat 3 end
          else if x =? 17 then again 0 3%nat 3
          else again 0 7%nat 11
      end
  end.
Definition dynamic (s : bitstream) : option (huffman * huffman * bitstream) :=
  match get_bits 5 s with
  | None => None
  | Some (hlit, s) =>
    match get_bits 5 s with
    | None => None
    | Some (hdist, s) =>
      match get_bits 4 s with
      | None => None
      | Some (hclen, s) =>
        match get_lengths3 (N.to_nat (hclen + 4)) s with
        | None => None
        | Some (l, s) =>
          match get_lengths 400 (huffman_of (clc_lengths l)) (hlit + hdist + 258) [] s with
          | None => None
          | Some (l, s) => Some (huffman_of (take (hlit + 257) l), huffman_of (drop (hlit + 257) l), s)
          end
        end
      end
    end
  end.
(** 3.2.4: a stored block starts at the next byte *)
Definition stored_block (out : bytes) (r : bytes) : bytes * option bitstream :=
  match r with
  | a :: b :: c :: d :: r =>
    let n := b2n a + 256 * b2n b in
    if n + (b2n c + 256 * b2n d) =? 65535
    then (rev (take n r) ++ out, if n <=? len r then Some ([], drop n r) else None)
    else (out, None)
  | _ => (out, None)
  end.
Fixpoint blocks (fuel : nat) (out : bytes) (s : bitstream) : bytes * option bitstream :=
  match fuel with
  | O => (out, None)
  | S f =>
    match get_bits 1 s with
    | None => (out, None)
    | Some (final, s) =>
      match get_bits 2 s with
      | None => (out, None)
      | Some (type, s) =>
        let '(out, x) :=
          if type =? 0 then stored_block out (snd s)
          else if type =? 1 then codes (8 * S (length (snd s))) fixed_lit fixed_dist out s
          else if type =? 2 then
            match dynamic s with None => (out, None) | Some (lit, dist, s) => codes (8 * S (length (snd s))) lit dist out s end
          else (out, None) in
        match x with
        | None => (out, None)
        | Some s => if final =? 1 then (out, Some s) else blocks f out s
        end
      end
    end
  end.
Definition inflate (w : bytes) : bytes * option N :=
  let '(out, x) := blocks (8 * S (length w)) [] ([], w) in
  (rev out, match x with Some (_, r) => Some (len w - len r) | None => None end).

(** The encoder takes up to 65535 bytes at a time into a stored block; a last, empty one ends the stream. *)
Definition stored_header (final : bool) (n : N) : bytes := n2b (N.b2n final) :: to_le 2 n ++ to_le 2 (65535 - n).
Definition flate : codec :=
  {| est := unit; enc_init _ _ := tt;
     enc_write _ b := let n := N.min 65535 (len b) in (n, stored_header false n ++ take n b, tt);
     enc_flush _ := ([], tt); enc_finish _ := stored_header true 0; dec _ w := inflate w |}.
