(** core::str::from_utf8 as a boolean test, and [u8::is_ascii] on slices. *)
From Verif Require Import Base.

Definition in_range (lo hi x : N) : bool := (lo <=? x) && (x <=? hi).
Definition cont (b : byte) : bool := in_range 0x80 0xBF (b2n b).

(** Table 3-7 of the Unicode standard, which is what core::str::validations checks. *)
Definition ok2 (a b : byte) : bool := in_range 0xC2 0xDF (b2n a) && cont b.
Definition ok3 (a b c : byte) : bool :=
  let x := b2n a in
  (((x =? 0xE0) && in_range 0xA0 0xBF (b2n b))
   || (in_range 0xE1 0xEC x && cont b)
   || ((x =? 0xED) && in_range 0x80 0x9F (b2n b))
   || (in_range 0xEE 0xEF x && cont b)) && cont c.
Definition ok4 (a b c d : byte) : bool :=
  let x := b2n a in
  (((x =? 0xF0) && in_range 0x90 0xBF (b2n b))
   || (in_range 0xF1 0xF3 x && cont b)
   || ((x =? 0xF4) && in_range 0x80 0x8F (b2n b))) && cont c && cont d.

(** [std::str::from_utf8(l).is_ok()] *)
Fixpoint utf8_valid (l : bytes) : bool :=
  match l with
  | [] => true
  | a :: r1 =>
    if b2n a <? 0x80 then utf8_valid r1
    else match r1 with
    | [] => false
    | b :: r2 =>
      if ok2 a b then utf8_valid r2
      else match r2 with
      | [] => false
      | c :: r3 =>
        if ok3 a b c then utf8_valid r3
        else match r3 with
        | [] => false
        | d :: r4 => if ok4 a b c d then utf8_valid r4 else false
        end
      end
    end
  end.

(** [slice.is_ascii()] *)
Definition is_ascii (l : bytes) : bool := forallb (fun b => b2n b <? 0x80) l.
