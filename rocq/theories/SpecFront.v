(** Archives of any origin read front to back: what lies before the directory (APPNOTE 4.3.7-4.3.9), and what should
    be seen of it. *)
From Verif Require Import Base SpecFormat SpecCrc SpecUtf8 SpecArchive SpecRead SpecWrite SpecStream ZString ZDate Headers ExtraField Entry IO Reader EntryReader StreamReader Writer.

(** One entry as it lies in the archive: what its local header says (its fields are those of a directory record as
    far as there are such in a local header), its data, and its data descriptor. *)
Record piece := {
  p_head : member; p_data : bytes;
  p_signed : bool; p_dcrc : N; p_dcsize : N; p_dusize : N }.
Definition p_streamed (p : piece) : bool := N.testbit (a_flags (p_head p)) 3.
Definition head_record (a : member) : bytes :=
  local_header (a_needed a) (a_flags a) (compression_to (a_method a)) (a_time a) (a_date a) (a_crc a)
    (kept (a_c64 a) 0xFFFFFFFF (a_csize a)) (kept (a_u64 a) 0xFFFFFFFF (a_usize a)) (len (a_name a)) (len (spec_extras (a_extras a)))
  ++ a_name a ++ spec_extras (a_extras a).
Definition p_tail (p : piece) : bytes :=
  if p_streamed p then descriptor (p_signed p) false (p_dcrc p) (p_dcsize p) (p_dusize p) else [].
Definition piece_image (p : piece) : bytes := head_record (p_head p) ++ p_data p ++ p_tail p.
Definition pieces (l : list piece) : bytes := concat (map piece_image l).

(** The entry can be read without the directory and holds [out]: it is not encrypted; without a descriptor its size is
    that of its data; with one its data tells its own end, and the descriptor can be told. *)
Definition piece_holds (cd : codec) (p : piece) (out : bytes) : Prop :=
  let a := p_head p in
  member_ok a /\ N.testbit (a_flags a) 0 = false /\
  if p_streamed p
  then a_method a <> Stored /\ (forall rest, dec cd (a_method a) (p_data p ++ rest) = (out, Some (len (p_data p)))) /\
       p_dcrc p < 0x100000000 /\ (p_signed p = false -> p_dcrc p <> 0x08074b50)
  else a_csize a = len (p_data p) /\
       match a_method a with Stored => out = p_data p | _ => dec cd (a_method a) (p_data p) = (out, Some (len (p_data p))) end.

(** what the reader should report for a local header *)
Definition head_shown (a : member) (z : zentry) : Prop :=
  reads_as XPath (N.testbit (a_flags a) 11) (a_extras a) (a_name a) (en_filename z) /\
  en_compression z = a_method a /\ en_crc32 z = a_crc a /\
  en_uncompressed_size z = a_usize a /\ en_compressed_size z = a_csize a /\
  en_date z = {| zd_date := a_date a; zd_time := a_time a |} /\
  en_extra z = heard (a_extras a) /\ en_data_descriptor z = N.testbit (a_flags a) 3 /\
  en_iattr z = 0 /\ en_eattr z = 0 /\ en_attr_compat z = Unix /\ zs_raw (en_comment z) = [].

(** The reader at [s] sees the entries one after the other, and then what [fin] says: each is shown, and however much of
    it is read first, reading on gives the rest (checked, if the CRC in the header is right), [skip] leads to the next
    entry, and [done] does if all was read. *)
Fixpoint passes (cd : codec) (cfg : config) (fin : res (option reading)) (l : list (piece * bytes)) (s : source) : Prop :=
  match l with
  | [] => fst (stream_next cfg s) = fin
  | (p, out) :: l =>
    exists rd s1, stream_next cfg s = (Ok (Some rd), s1) /\ head_shown (p_head p) (rd_entry rd) /\
      forall reads, let '(xs, r) := er_reads cd reads (rd_reader rd) in
        let y := {| rd_reader := r; rd_entry := rd_entry rd; rd_descriptor := rd_descriptor rd |} in
        (exists rest, out = delivered xs ++ rest /\ fst (er_read_to_end cd r) = Ok rest /\
           fst (er_read_to_end_checked cd (rd_entry rd) r) = if crc32_spec out =? a_crc (p_head p) then Ok rest else Err CRC32CheckError) /\
        (exists s2, stream_skip cd y = Ok s2 /\ passes cd cfg fin l s2) /\
        (delivered xs = out -> exists s2, stream_done cd y = Ok s2 /\ passes cd cfg fin l s2) /\
        (delivered xs <> out -> stream_done cd y = Err EOFNotReached)
  end.

(** A caller that reads everything: each entry to its end, then [done]. *)
Fixpoint front_to_back (cd : codec) (cfg : config) (fuel : nat) (s : source) : res (list (zentry * bytes)) :=
  match fuel with
  | O => Panic PFuel
  | S fuel =>
    match fst (stream_next cfg s) with
    | Err e => Err e
    | Panic p => Panic p
    | Ok None => Ok []
    | Ok (Some rd) =>
      let '(b, r) := er_read_to_end cd (rd_reader rd) in
      let? b := b in
      let? s2 := stream_done cd {| rd_reader := r; rd_entry := rd_entry rd; rd_descriptor := rd_descriptor rd |} in
      let? l := front_to_back cd cfg fuel s2 in
      Ok ((rd_entry rd, b) :: l)
    end
  end.

(** what is said behind the last entry: the directory ends the archive; anything else, or nothing, is an error *)
Inductive said_at (y : bytes) : res (option reading) -> Prop :=
| said_end rest : y = le 4 0x02014b50 ++ rest -> said_at y (Ok None)
| said_wrong sig rest : sig < 0x100000000 -> sig <> 0x02014b50 -> sig <> 0x04034b50 -> y = le 4 sig ++ rest ->
    said_at y (Err (UnexpectedHeaderError sig 0x04034b50))
| said_cut : len y < 4 -> said_at y (Err (UpstreamReadError UnexpectedEof)).

(** The directory [ms] describes the entries [l] lying from [off] on: where each starts, how long its data is, the CRC of
    its content, and the same name, method and time as in its local header. *)
Definition path_fields (xs : list extra_field) : list unicode_field :=
  flat_map (fun x => match x with XPath u => [u] | _ => [] end) xs.
Fixpoint described (off : N) (l : list (piece * bytes)) (ms : list member) : Prop :=
  match l, ms with
  | [], [] => True
  | (p, out) :: l, m :: ms =>
    let a := p_head p in
    member_ok m /\ a_name m = a_name a /\ N.testbit (a_flags m) 11 = N.testbit (a_flags a) 11 /\
    path_fields (a_extras m) = path_fields (a_extras a) /\ a_method m = a_method a /\
    a_time m = a_time a /\ a_date m = a_date a /\ a_csize m = len (p_data p) /\ a_crc m = crc32_spec out /\ a_offset m = off /\
    described (off + len (piece_image p)) l ms
  | _, _ => False
  end.
(** two readers show the same entry *)
Definition same_view (z : zentry) (e : stored_entry) : Prop :=
  en_filename z = en_filename (st_entry e) /\ en_compression z = en_compression (st_entry e) /\ en_date z = en_date (st_entry e).

(** a caller who compressed the data themselves gave the size it has uncompressed *)
Definition size_claimed (o : wop) (data : bytes) : Prop :=
  match o with OpWholePre e _ | OpStream true e _ _ => en_uncompressed_size e = len data | _ => True end.
