(** What a single-disk ZIP archive is (APPNOTE 4.3), and what a reader should report for it.
    Written without reference to the reader or the writer; only the result types are shared. *)
From Verif Require Import Base SpecFormat SpecCrc SpecUtf8 ZString ZDate Headers ExtraField Entry Reader.

(** APPNOTE 4.5.3, 4.6.8, 4.6.9: the payload of an extra field *)
Definition opt_field (k : nat) (o : option N) : bytes := match o with Some v => le k v | None => [] end.
Definition spec_unicode (u : unicode_field) : bytes :=
  match u with UV1 crc text => [x01] ++ le 4 crc ++ text | UUnknown v d => [v] ++ d end.
Definition spec_payload (x : extra_field) : bytes :=
  match x with
  | XZip64 z => opt_field 8 (zf_uncompressed z) ++ opt_field 8 (zf_compressed z) ++ opt_field 8 (zf_offset z)
                ++ opt_field 4 (zf_disk z)
  | XComment u => spec_unicode u
  | XPath u => spec_unicode u
  | XUnknown _ _ c => c
  end.
Definition spec_id (x : extra_field) : N :=
  match x with XZip64 _ => 0x0001 | XComment _ => 0x6375 | XPath _ => 0x7075 | XUnknown id _ _ => id end.
Definition spec_extras (l : list extra_field) : bytes :=
  concat (map (fun x => extra (spec_id x) (spec_payload x)) l).

(** an extra field other than the ZIP64 one, with values in range *)
Definition plain_field (x : extra_field) : Prop :=
  match x with
  | XZip64 _ => False
  | XComment u | XPath u => match u with UV1 crc _ => crc < 0x100000000 | UUnknown v _ => b2n v <> 1 end
  | XUnknown id sz c => id < 0x10000 /\ id <> 0x0001 /\ id <> 0x6375 /\ id <> 0x7075 /\ sz = len c
  end.

(** One member of an archive as its central directory describes it. [a_u64] ... say which values are
    kept in the ZIP64 extra field instead of the header. *)
Record member := {
  a_made_by : N; a_needed : N; a_flags : N; a_method : compression; a_time : N; a_date : N; a_crc : N;
  a_usize : N; a_csize : N; a_offset : N; a_disk : N;
  a_u64 : bool; a_c64 : bool; a_o64 : bool; a_d64 : bool;
  a_iattr : N; a_eattr : N; a_name : bytes; a_comment : bytes;
  a_before : list extra_field; a_after : list extra_field }.

Definition when {A} (b : bool) (v : A) : option A := if b then Some v else None.
Definition a_zip64 (a : member) : list extra_field :=
  if a_u64 a || a_c64 a || a_o64 a || a_d64 a then
    [XZip64 {| zf_uncompressed := when (a_u64 a) (a_usize a); zf_compressed := when (a_c64 a) (a_csize a);
               zf_offset := when (a_o64 a) (a_offset a); zf_disk := when (a_d64 a) (a_disk a) |}]
  else [].
Definition a_extras (a : member) : list extra_field := a_before a ++ a_zip64 a ++ a_after a.

Definition kept (in64 : bool) (placeholder v : N) : N := if in64 then placeholder else v.

(** its central directory record *)
Definition member_record (a : member) : bytes :=
  central_header (a_made_by a) (a_needed a) (a_flags a) (compression_to (a_method a)) (a_time a) (a_date a) (a_crc a)
    (kept (a_c64 a) 0xFFFFFFFF (a_csize a)) (kept (a_u64 a) 0xFFFFFFFF (a_usize a))
    (len (a_name a)) (len (spec_extras (a_extras a))) (len (a_comment a))
    (kept (a_d64 a) 0xFFFF (a_disk a)) (a_iattr a) (a_eattr a) (kept (a_o64 a) 0xFFFFFFFF (a_offset a))
  ++ a_name a ++ spec_extras (a_extras a) ++ a_comment a.

Definition fits (in64 : bool) (bound v : N) : Prop := if in64 then v < 0x10000000000000000 else v < bound.

(** The values have their widths; a 32-bit size equal to the placeholder appears only when there is no
    ZIP64 field. *)
Definition member_ok (a : member) : Prop :=
  a_made_by a < 0x10000 /\ a_needed a < 0x10000 /\ a_flags a < 0x10000 /\ a_time a < 0x10000 /\
  a_date a < 0x10000 /\ a_crc a < 0x100000000 /\ a_iattr a < 0x10000 /\ a_eattr a < 0x100000000 /\
  fits (a_u64 a) 0x100000000 (a_usize a) /\ fits (a_c64 a) 0x100000000 (a_csize a) /\
  fits (a_o64 a) 0x100000000 (a_offset a) /\ a_disk a < (if a_d64 a then 0x100000000 else 0x10000) /\
  (a_zip64 a <> [] -> a_u64 a = false -> a_usize a <> 0xFFFFFFFF) /\
  (a_zip64 a <> [] -> a_c64 a = false -> a_csize a <> 0xFFFFFFFF) /\
  len (a_name a) < 0x10000 /\ len (a_comment a) < 0x10000 /\ len (spec_extras (a_extras a)) < 0x10000 /\
  Forall plain_field (a_before a) /\ Forall plain_field (a_after a).

(** the extra fields reported: all of them, except that an empty last one is left out *)
Definition heard (l : list extra_field) : list extra_field :=
  match rev l with x :: r => match spec_payload x with [] => rev r | _ => l end | [] => [] end.

(** Which string a name or comment stands for (APPNOTE 4.4.4 bit 11, 4.6.8, 4.6.9): bit 11 makes it
    UTF-8; otherwise the first Info-ZIP Unicode field whose CRC matches replaces it, if valid;
    otherwise it is text only when it is ASCII. [mk] is the kind of field looked at. *)
Definition ascii (l : bytes) : Prop := Forall (fun b => b2n b < 128) l.
Definition speaks_of (mk : unicode_field -> extra_field) (basic : bytes) (x : extra_field) : Prop :=
  exists text, x = mk (UV1 (crc32_spec basic) text).
Definition no_text (mk : unicode_field -> extra_field) (basic : bytes) (xs : list extra_field) : Prop :=
  Forall (fun x => ~ speaks_of mk basic x) xs \/
  exists pre text post, xs = pre ++ mk (UV1 (crc32_spec basic) text) :: post /\
    Forall (fun x => ~ speaks_of mk basic x) pre /\ ~ is_utf8 text.

Inductive reads_as (mk : unicode_field -> extra_field) (flag : bool) (xs : list extra_field) (basic : bytes) : zstring -> Prop :=
| ra_flag : flag = true -> is_utf8 basic ->
    reads_as mk flag xs basic {| zs_enc := EUtf8; zs_raw := basic; zs_alt := None |}
| ra_flag_invalid : flag = true -> ~ is_utf8 basic ->
    reads_as mk flag xs basic {| zs_enc := ERaw; zs_raw := basic; zs_alt := None |}
| ra_field pre text post : flag = false -> xs = pre ++ mk (UV1 (crc32_spec basic) text) :: post ->
    Forall (fun x => ~ speaks_of mk basic x) pre -> is_utf8 text ->
    reads_as mk flag xs basic {| zs_enc := EUtf8; zs_raw := text; zs_alt := Some basic |}
| ra_ascii : flag = false -> no_text mk basic xs -> ascii basic ->
    reads_as mk flag xs basic {| zs_enc := EUtf8; zs_raw := basic; zs_alt := None |}
| ra_raw : flag = false -> no_text mk basic xs -> ~ ascii basic ->
    reads_as mk flag xs basic {| zs_enc := ERaw; zs_raw := basic; zs_alt := None |}.

(** what the reader should report for a member *)
Definition reported (a : member) (e : stored_entry) : Prop :=
  let z := st_entry e in
  reads_as XPath (N.testbit (a_flags a) 11) (a_extras a) (a_name a) (en_filename z) /\
  reads_as XComment (N.testbit (a_flags a) 11) (a_extras a) (a_comment a) (en_comment z) /\
  en_compression z = a_method a /\ en_crc32 z = a_crc a /\
  en_uncompressed_size z = a_usize a /\ en_compressed_size z = a_csize a /\
  en_date z = {| zd_date := a_date a; zd_time := a_time a |} /\
  en_iattr z = a_iattr a /\ en_eattr z = a_eattr a /\ en_attr_compat z = Unix /\
  en_extra z = heard (a_extras a) /\ en_data_descriptor z = N.testbit (a_flags a) 3 /\
  st_file_offset e = a_offset a /\ st_header_size e = 30 + len (a_name a) + len (spec_extras (a_extras a)).

(** the central directory *)
Definition members (l : list member) : bytes := concat (map member_record l).

(** the archive comment as a string *)
Inductive comment_reads_as (c : bytes) : zstring -> Prop :=
| comment_text : is_utf8 c -> comment_reads_as c {| zs_enc := EUtf8; zs_raw := c; zs_alt := None |}
| comment_raw : ~ is_utf8 c -> comment_reads_as c {| zs_enc := ERaw; zs_raw := c; zs_alt := None |}.

(** what the reader should report for the archive *)
Definition reported_file (l : list member) (zip64 : bool) (comment : bytes) (f : zfile) : Prop :=
  Forall2 reported l (f_entries f) /\ f_zip64 f = zip64 /\ comment_reads_as comment (f_comment f).

(** "the signature occurs at offset [p]" *)
Definition found_at (sig d : bytes) (p : N) : Prop := exists a b, d = a ++ sig ++ b /\ len a = p.

(** APPNOTE 4.3.14 in general: any size field; extensible data may follow *)
Definition zip64_end (size made_by needed disk cd_disk entries_disk entries cd_size cd_offset : N) : bytes :=
  record [(4%nat, 0x06064b50); (8%nat, size); (2%nat, made_by); (2%nat, needed); (4%nat, disk);
          (4%nat, cd_disk); (8%nat, entries_disk); (8%nat, entries); (8%nat, cd_size); (8%nat, cd_offset)].

(** APPNOTE 4.4.1.4: a saturated field means "see the ZIP64 record" *)
Definition chosen (placeholder v v64 : N) : N := if v =? placeholder then v64 else v.

(** ** Where the data of an entry lies *)
(** the 16-bit number at offset [p] *)
Definition u16_at (d : bytes) (p : N) : N :=
  b2n (nth (N.to_nat p) d x00) + 256 * b2n (nth (N.to_nat (p + 1)) d x00).
(** APPNOTE 4.3.7: the local header at [off] is 30 bytes, a name and an extra field; their lengths are at 26 and 28 *)
Definition data_start (d : bytes) (off : N) : N := off + 30 + u16_at d (off + 26) + u16_at d (off + 28).

(** two byte strings have the same bytes in [a .. a+n) *)
Definition agree_on (d1 d2 : bytes) (a n : N) : Prop :=
  forall i, a <= i -> i < a + n -> nth_error d1 (N.to_nat i) = nth_error d2 (N.to_nat i).
