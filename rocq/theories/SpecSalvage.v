(** What an archive that was cut short still gives, read front to back. *)
From Verif Require Import Base SpecFormat SpecArchive SpecRead SpecWrite SpecStream SpecStrict SpecExact SpecThrough ZString Headers ExtraField Entry IO Reader EntryReader Writer StreamReader.

(** one entry stands at the front of [l], with [tail] behind it *)
Inductive entry_here (cd : codec) (l : bytes) (z : zentry) (out tail : bytes) : Prop :=
| entry_stands t m k : read_top l t m -> top_tells t z -> top_readable t z ->
    decoded cd (en_compression z) (data_of z m) = (out, true) -> entry_span cd (en_compression z) (data_of z m) = Some k ->
    behind (en_data_descriptor z) (past k m) tail -> entry_here cd l z out tail.
(** so do the entries [xs] *)
Inductive entries_here (cd : codec) : bytes -> list (zentry * bytes) -> bytes -> Prop :=
| eh_none l : entries_here cd l [] l
| eh_entry l z out tail xs rest : entry_here cd l z out tail -> entries_here cd tail xs rest -> entries_here cd l ((z, out) :: xs) rest.

(** A decoder that comes to the end of the data has seen no further: it gives the same whatever stands behind that. *)
Definition dec_local (cd : codec) : Prop := forall c w out k, c <> Stored -> dec cd c w = (out, Some k) ->
  k <= len w /\ forall rest, dec cd c (upto k w ++ rest) = (out, Some k).

(** A caller that goes through an archive as [pick] does, and keeps what it had when a call fails. *)
Fixpoint gather (cd : codec) (cfg : config) (pl : plan) (fuel : nat) (i : nat) (s : source) : list (zentry * bytes) * res unit :=
  match fuel with
  | O => ([], Panic PFuel)
  | S fuel =>
    match fst (stream_next cfg s) with
    | Ok None => ([], Ok tt)
    | Ok (Some rd) =>
      match leave cd (pl i (rd_entry rd)) rd with
      | Ok (b, s2) => let '(l, r) := gather cd cfg pl fuel (S i) s2 in ((rd_entry rd, b) :: l, r)
      | Err e => ([], Err e)
      | Panic p => ([], Panic p)
      end
    | Err e => ([], Err e)
    | Panic p => ([], Panic p)
    end
  end.
(** a call failed; a panic is that of [C38] *)
Definition gave_up (cfg : config) (r : res unit) : Prop :=
  match r with Ok _ => False | Err _ => True | Panic p => p = POverflow /\ overflow_checks cfg = true end.

(** What is left of an entry through which the cut went: with a header that is whole the entry is told as it is, and of its
    content there is a beginning. *)
Definition remnant (l : bytes) (room : N) (x y : zentry * bytes) : Prop :=
  (exists rest, snd x = snd y ++ rest) /\
  (forall t m, read_top l t m -> len l <= len m + room -> fst y = fst x /\ en_compression (fst x) = Stored).

(** an entry that the writer was asked for, and what there is to read of it *)
Definition told_of (cd : codec) (x : bool * wop) (y : zentry * bytes) : Prop :=
  (exists it, leaves cd (fst x) (snd x) it /\ shown it (fst y)) /\ forall data, holds cd (snd x) data -> snd y = data.
