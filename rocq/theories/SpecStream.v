(** Reading an archive front to back: what should be seen. *)
From Verif Require Import Base SpecFormat SpecCrc SpecArchive SpecRead SpecWrite ZString ZDate Headers ExtraField Entry IO IOFacts
  Reader EntryReader StreamReader Writer.

(** how many bytes of [w] a complete compressed stream at its start takes *)
Definition entry_span (cd : codec) (c : compression) (w : bytes) : option N :=
  match c with Stored => Some (len w) | _ => snd (dec cd c w) end.
(** a source over [d] that has reached [p] and has no errors ahead *)
Definition stands (s : source) (d : bytes) (p : N) : Prop :=
  s_data s = d /\ s_pos s = p /\ nofail (s_sched s).

(** what the local header tells about an entry *)
Definition shown (it : item) (z : zentry) : Prop :=
  let e := i_entry it in
  stored_bytes (en_filename z) = i_name it /\ en_compression z = en_compression e /\ en_date z = en_date e /\
  en_data_descriptor z = i_stream it /\
  (i_stream it = false -> en_crc32 z = i_crc it /\ en_uncompressed_size z = i_usize it /\ en_compressed_size z = i_csize it) /\
  (texts_clear e -> same_text (en_filename e) (en_filename z)).

(** The reader at [s] sees the entries [l] one after the other and then the end: each is shown, and however much of it is
    read first, reading on gives the rest, [skip] leads to the next, and [done] does if all was read. *)
Fixpoint walks (cd : codec) (cfg : config) (l : list (bool * wop)) (s : source) : Prop :=
  match l with
  | [] => fst (stream_next cfg s) = Ok None
  | x :: l =>
    exists rd s1, stream_next cfg s = (Ok (Some rd), s1) /\
      (exists it, leaves cd (fst x) (snd x) it /\ shown it (rd_entry rd)) /\
      exists out, (forall data, holds cd (snd x) data -> out = data) /\
      forall reads, let '(xs, r) := er_reads cd reads (rd_reader rd) in
        let y := {| rd_reader := r; rd_entry := rd_entry rd; rd_descriptor := rd_descriptor rd |} in
        (exists rest, out = delivered xs ++ rest /\ fst (er_read_to_end cd r) = Ok rest /\
           (en_data_descriptor (rd_entry rd) = false -> holds cd (snd x) out -> fst (er_read_to_end_checked cd (rd_entry rd) r) = Ok rest)) /\
        (exists s2, stream_skip cd y = Ok s2 /\ walks cd cfg l s2) /\
        (delivered xs = out -> exists s2, stream_done cd y = Ok s2 /\ walks cd cfg l s2) /\
        (delivered xs <> out -> stream_done cd y = Err EOFNotReached)
  end.

(** entries that can be told apart without the directory: streamed ones are compressed, and precompressed data is one
    complete compressed stream *)
Definition streamable (cd : codec) (o : wop) : Prop :=
  match o with
  | OpWholePre e z => en_compression e = Stored \/ exists out, dec cd (en_compression e) z = (out, Some (len z))
  | OpStream false e _ _ => en_compression e <> Stored
  | OpStream true e body _ => en_compression e <> Stored /\
      exists out, forall rest, dec cd (en_compression e) (fed_bytes body ++ rest) = (out, Some (len (fed_bytes body)))
  | _ => True
  end.

(** data descriptors (APPNOTE 4.3.9): with or without signature, 32 or 64 bit sizes *)
Definition descriptor (signed wide : bool) (crc csize usize : N) : bytes :=
  (if signed then le 4 0x08074b50 else []) ++ le 4 crc ++
  (if wide then le 8 csize ++ le 8 usize else le 4 csize ++ le 4 usize).
