(** The part of an archive that opening it does not look at. *)
From Verif Require Import Base SpecFormat SpecArchive SpecStrict SpecExact.

(** What an opening of [d] looks at lies behind [p]: the records of the directory, the place of the locator and of the end record, and, if
    there is a locator, the 64 bit end record it names. *)
Definition looks_behind (p : N) (d : bytes) : Prop := forall x rs, says d x rs ->
  (rs <> [] -> p <= n_offset x) /\ (20 <= n_at x -> p <= n_at x - 20) /\ p <= n_at x /\
  match n_locator x with Some lo => p <= (lo + 4) mod 0x10000000000000000 | None => True end.
(** [n] bytes from [q] on lie outside the [m] bytes from [p] on *)
Definition apart (p m q n : N) : Prop := q + n <= p \/ p + m <= q.
