(** An archive's entries with their contents, as they stand in the bytes. *)
From Verif Require Import Base SpecFormat SpecCrc SpecArchive SpecRead SpecStream SpecStrict SpecExact ZString Headers ExtraField Entry IO Reader EntryReader StreamReader.

(** ** Front to back *)
(** What follows the data of an entry: nothing, or a data descriptor, taken to be of 16 bytes if it begins with the
    signature and of 12 bytes if not (stream.rs 177-187); what it says is not looked at. *)
Inductive behind : bool -> bytes -> bytes -> Prop :=
| behind_none l : behind false l l
| behind_signed w l : len w = 12 -> behind true (le 4 0x08074b50 ++ w ++ l) l
| behind_bare w l : len w = 12 -> firstn 4 w <> le 4 0x08074b50 -> behind true (w ++ l) l.
(** the data of an entry: as much as the header says, or all that follows if there is a data descriptor *)
Definition data_of (z : zentry) (m : bytes) : bytes := if en_data_descriptor z then m else upto (en_compressed_size z) m.
(** entry by entry, up to the directory *)
Inductive goes (cd : codec) : bytes -> list (zentry * bytes) -> Prop :=
| goes_end l : goes cd (le 4 0x02014b50 ++ l) []
| goes_entry l t m z out k tail xs :
    read_top l t m -> top_tells t z -> top_readable t z ->
    decoded cd (en_compression z) (data_of z m) = (out, true) -> entry_span cd (en_compression z) (data_of z m) = Some k ->
    behind (en_data_descriptor z) (past k m) tail -> goes cd tail xs -> goes cd l ((z, out) :: xs).

(** A caller that goes through an archive and, as the plan says for the entry at hand, either reads it to the end and
    calls [done], or reads some of it with buffers of the sizes given and calls [skip]. *)
Definition plan := nat -> zentry -> option (list N).
Definition leave (cd : codec) (choice : option (list N)) (rd : reading) : res (bytes * source) :=
  match choice with
  | None =>
    let '(b, r) := er_read_to_end cd (rd_reader rd) in
    let? b := b in
    let? s := stream_done cd {| rd_reader := r; rd_entry := rd_entry rd; rd_descriptor := rd_descriptor rd |} in
    Ok (b, s)
  | Some sizes =>
    let '(xs, r) := er_reads cd sizes (rd_reader rd) in
    let? s := stream_skip cd {| rd_reader := r; rd_entry := rd_entry rd; rd_descriptor := rd_descriptor rd |} in
    Ok (delivered xs, s)
  end.
Fixpoint pick (cd : codec) (cfg : config) (pl : plan) (fuel : nat) (i : nat) (s : source) : res (list (zentry * bytes)) :=
  match fuel with
  | O => Panic PFuel
  | S fuel =>
    let? o := fst (stream_next cfg s) in
    match o with
    | None => Ok []
    | Some rd =>
      let? x := leave cd (pl i (rd_entry rd)) rd in
      let? l := pick cd cfg pl fuel (S i) (snd x) in
      Ok ((rd_entry rd, fst x) :: l)
    end
  end.
(** what the caller then has of the entries from the [i]th on: all that was to be read, and of the others a beginning *)
Fixpoint picked (pl : plan) (i : nat) (xs ys : list (zentry * bytes)) : Prop :=
  match xs, ys with
  | [], [] => True
  | (z, out) :: xs, (z', b) :: ys =>
    z' = z /\ match pl i z with None => b = out | Some _ => exists rest, out = b ++ rest end /\ picked pl (S i) xs ys
  | _, _ => False
  end.

(** ** By the directory *)
(** What reading the entry [e] of the archive [d] gives, in every case. *)
Definition outcome (cd : codec) (d : bytes) (e : stored_entry) : res bytes :=
  let h := past (st_file_offset e) d in
  if len h <? 4 then Err (UpstreamReadError UnexpectedEof)
  else if negb (value (upto 4 h) =? 0x04034b50) then Err (UnexpectedHeaderError (value (upto 4 h)) 0x04034b50)
  else if len h <? 30 then Err (UpstreamReadError UnexpectedEof)
  else if 0xFFFFFFFFFFFFFFFF <? data_start d (st_file_offset e) then Err (UpstreamReadError InvalidInput)
  else checked_content cd d e.
(** A caller that opens an archive and reads every entry. *)
Fixpoint read_each (cd : codec) (m : mem_reader) (i : N) (es : list stored_entry) : res (list (stored_entry * bytes)) :=
  match es with
  | [] => Ok []
  | e :: es => let? b := mem_read_entry cd m i in let? l := read_each cd m (i + 1) es in Ok ((e, b) :: l)
  end.
Definition read_everything (cd : codec) (cfg : config) (d : bytes) : res (list (stored_entry * bytes)) :=
  let? m := mem_new cfg d in read_each cd m 0 (f_entries (m_file m)).
(** the row tells of the entry, a local header is where it says, and the data behind that is the content with the CRC of the row *)
Definition stands_there (cd : codec) (d : bytes) (r : row) (x : stored_entry * bytes) : Prop :=
  let e := fst x in let z := st_entry e in
  tells r e /\
  exists needed flags method time date crc cs us nl xl m,
    nums [4; 2; 2; 2; 2; 2; 4; 4; 4; 2; 2]%nat (past (st_file_offset e) d) =
      Some ([0x04034b50; needed; flags; method; time; date; crc; cs; us; nl; xl], m) /\
    decoded cd (en_compression z) (upto (en_compressed_size z) (past (nl + xl) m)) = (snd x, true) /\ crc32_spec (snd x) = w_crc r.
