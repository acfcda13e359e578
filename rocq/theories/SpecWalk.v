(** What a caller got of the entries it went through. *)
From Verif Require Import Base BaseFacts SpecFormat SpecArchive SpecRead SpecWrite SpecStream Headers Entry IO EntryReader Writer ReaderPolls SpecReadPolls DecoderPolls SpecDecoder DecoderWalk.
Import SpecReadPolls.

(** It was shown the entry and handed over a beginning of its content; all of it if a poll said so, or if [done] let it go on. *)
Definition visited_as (x : zentry * bytes) (y : stayed) : Prop :=
  sd_entry y = fst x /\ prefix (told (sd_polls y)) (snd x) /\ (Exists at_end (sd_polls y) \/ sd_left y = Some true -> told (sd_polls y) = snd x).
(** no poll reported malformed data *)
Definition no_complaint (y : stayed) : Prop := ~ Exists found_bad (sd_polls y).

(** what a walk passes where an entry was written: the entry as written, and the content that was put in *)
Definition written_as (cd : codec) (x : bool * wop) (y : zentry * bytes) : Prop :=
  (exists it, leaves cd (fst x) (snd x) it /\ shown it (fst y)) /\ forall data, holds cd (snd x) data -> snd y = data.
