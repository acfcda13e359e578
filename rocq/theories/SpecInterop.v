(** What readers other than this crate's need of the end of an archive. *)
From Verif Require Import Base SpecFormat SpecArchive.

(** an end record (APPNOTE 4.3.16) at [q] whose comment reaches to the end of [d] *)
Definition complete_end (d : bytes) (q : N) : Prop :=
  exists a b c, d = a ++ le 4 0x06054b50 ++ b ++ le 2 (len c) ++ c /\ len a = q /\ len b = 16 /\ len c <= 65535.
(** a ZIP64 end record and a locator that points to it (APPNOTE 4.3.14, 4.3.15), [n] bytes before the end of [d] *)
Definition complete_end64 (d : bytes) (n : N) : Prop :=
  exists a b c, d = a ++ le 4 0x06064b50 ++ le 8 44 ++ b ++ le 4 0x07064b50 ++ le 4 0 ++ le 8 (len a) ++ le 4 1 ++ c /\ len b = 44 /\ len c = n.
(** no end record behind the archive's own; if that is not a ZIP64 one, nothing before it looks as if it were *)
Definition others_clear (zip64 : bool) (comment d : bytes) : Prop :=
  len comment <= 65535 /\ (forall q, complete_end d q -> q + 22 + len comment <= len d) /\ (zip64 = false -> ~ complete_end64 d (22 + len comment)).
