(** What a walk that does not come to the end has passed. *)
From Verif Require Import Base BaseFacts SpecFormat SpecArchive SpecRead SpecStream SpecStrict SpecExact SpecThrough SpecReadPolls SpecDecoder SpecWalk SpecSalvage ZString Headers ExtraField
  Entry IO Reader EntryReader StreamReader ReaderPolls DecoderPolls DecoderWalk.

(** the caller does not go on behind an entry of which it was told that the data are malformed *)
Definition heeds (y : stayed) : Prop := sd_left y <> None -> no_complaint y.
(** The bytes [l] start with a header, the entry was told from it, and what the polls handed over before they complained is a
    beginning of what the bytes behind the header decode to. *)
Definition halfway (cd : codec) (l : bytes) (y : stayed) : Prop :=
  exists t m, read_top l t m /\ top_tells t (sd_entry y) /\ top_readable t (sd_entry y) /\
    forall ps qs, sd_polls y = ps ++ qs -> ~ Exists found_bad ps ->
      prefix (told ps) (fst (decoded cd (en_compression (sd_entry y)) (data_of (sd_entry y) m))).
(** what the polls handed over before they complained is a beginning of [out] *)
Definition begins (out : bytes) (y : stayed) : Prop := forall ps qs, sd_polls y = ps ++ qs -> ~ Exists found_bad ps -> prefix (told ps) out.

(** A decoder that is given more takes back nothing of what it handed over. *)
Definition dec_grows (cd : codec) : Prop := forall c w rest, c <> Stored -> prefix (fst (dec cd c w)) (fst (dec cd c (w ++ rest))).
