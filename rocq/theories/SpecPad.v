(** Bytes that follow an archive. *)
From Verif Require Import Base SpecFormat SpecArchive SpecStrict SpecExact.

(** records of the directory, and what follows them *)
Inductive rows_to : bytes -> list row -> bytes -> Prop :=
| rt_none l : rows_to l [] l
| rt_more l r m rs e : read_row l r m -> rows_to m rs e -> rows_to l (r :: rs) e.
(** [d] ends with the archive: the comment is there in full, and the directory stops before the end of the data *)
Definition orderly (d : bytes) : Prop := forall x rs, says d x rs ->
  n_at x + 22 + value (upto 2 (past (n_at x + 20) d)) <= len d /\
  (forall e, rows_to (past (n_offset x) d) rs e -> rs = [] \/ e <> []).
(** nothing in [t] looks like the end of an archive, nor does it complete something at the end of [d] that does *)
Definition no_new_end (d t : bytes) : Prop := forall q, found_at (le 4 0x06054b50) (d ++ t) q -> found_at (le 4 0x06054b50) d q.
