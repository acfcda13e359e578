(** spec/header.rs 26-104, spec/extra_field.rs, spec/parse.rs 266-281: extra fields. *)
From Verif Require Import Base Headers.

(** spec/header.rs 29-35 *)
Definition ID_ZIP64 : N := 0x0001.
Definition ID_UCOMMENT : N := 0x6375.
Definition ID_UPATH : N := 0x7075.

(** spec/header.rs 63-71. [header_id] is a field in Rust but is always the constant
    [ID_ZIP64] (the only constructors are the builder and [extra_field_from_bytes]). *)
Record zip64_field := {
  zf_uncompressed : option N; zf_compressed : option N; zf_offset : option N;
  zf_disk : option N }.

(** spec/header.rs 84-96 (same shape for comment and path) *)
Inductive unicode_field :=
| UV1 (crc : N) (unicode : bytes)
| UUnknown (version : byte) (data : bytes).

(** spec/header.rs 53-58, 99-104 *)
Inductive extra_field :=
| XZip64 (z : zip64_field)
| XComment (u : unicode_field)
| XPath (u : unicode_field)
| XUnknown (id data_size : N) (content : bytes).

Definition opt_size {A} (k : N) (o : option A) : N := match o with Some _ => k | None => 0 end.

(** spec/header.rs 74-79: eight bytes are counted for the 4-byte disk number as well. *)
Definition content_size (z : zip64_field) : N :=
  opt_size 8 (zf_uncompressed z) + opt_size 8 (zf_compressed z) + opt_size 8 (zf_offset z)
  + opt_size 8 (zf_disk z).

Definition opt_le {A} (k : nat) (f : A -> N) (o : option A) : bytes :=
  match o with Some v => to_le k (f v) | None => [] end.

(** spec/extra_field.rs 67-92 *)
Definition zip64_as_bytes (z : zip64_field) : bytes :=
  to_le 2 ID_ZIP64 ++ to_le 2 (content_size z)
  ++ opt_le 8 (fun x => x) (zf_uncompressed z) ++ opt_le 8 (fun x => x) (zf_compressed z)
  ++ opt_le 8 (fun x => x) (zf_offset z) ++ opt_le 4 (fun x => x) (zf_disk z).
Definition zip64_count_bytes (z : zip64_field) : N := 4 + content_size z.

(** spec/extra_field.rs 94-154; [try_into::<u16>().unwrap()] panics above 65535. *)
Definition unicode_as_bytes (id : N) (u : unicode_field) : res bytes :=
  match u with
  | UV1 crc unicode =>
    if 5 + len unicode <? 65536
    then Ok (to_le 2 id ++ to_le 2 (5 + len unicode) ++ [x01] ++ to_le 4 crc ++ unicode)
    else Panic PUnwrap
  | UUnknown v data =>
    if 1 + len data <? 65536
    then Ok (to_le 2 id ++ to_le 2 (1 + len data) ++ [v] ++ data)
    else Panic PUnwrap
  end.
Definition unicode_count_bytes (u : unicode_field) : N :=
  match u with UV1 _ unicode => 9 + len unicode | UUnknown _ data => 5 + len data end.

(** spec/extra_field.rs 51-65 *)
Definition unknown_as_bytes (id data_size : N) (content : bytes) : bytes :=
  to_le 2 id ++ to_le 2 data_size ++ content.

(** spec/extra_field.rs 31-49 *)
Definition field_as_bytes (x : extra_field) : res bytes :=
  match x with
  | XZip64 z => Ok (zip64_as_bytes z)
  | XComment u => unicode_as_bytes ID_UCOMMENT u
  | XPath u => unicode_as_bytes ID_UPATH u
  | XUnknown id sz content => Ok (unknown_as_bytes id sz content)
  end.
Definition field_count_bytes (x : extra_field) : N :=
  match x with
  | XZip64 z => zip64_count_bytes z
  | XComment u => unicode_count_bytes u
  | XPath u => unicode_count_bytes u
  | XUnknown _ _ content => 4 + len content
  end.

(** spec/extra_field.rs 17-29 *)
Fixpoint fields_as_bytes (l : list extra_field) : res bytes :=
  match l with
  | [] => Ok []
  | x :: r => let? a := field_as_bytes x in let? b := fields_as_bytes r in Ok (a ++ b)
  end.
Fixpoint fields_count_bytes (l : list extra_field) : N :=
  match l with [] => 0 | x :: r => field_count_bytes x + fields_count_bytes r end.

(** spec/extra_field.rs 158-206. The slices are guarded by the length tests just before them. *)
Definition zip64_from_bytes (data : bytes) (usize csize : N) : zip64_field :=
  let i0 := 0 in
  let '(u, i1) := if (usize =? NON_ZIP64_MAX_SIZE) && (i0 + 8 <=? len data)
                  then (Some (from_le (slice i0 (i0 + 8) data)), i0 + 8) else (None, i0) in
  let '(c, i2) := if (csize =? NON_ZIP64_MAX_SIZE) && (i1 + 8 <=? len data)
                  then (Some (from_le (slice i1 (i1 + 8) data)), i1 + 8) else (None, i1) in
  let '(o, i3) := if i2 + 8 <=? len data
                  then (Some (from_le (slice i2 (i2 + 8) data)), i2 + 8) else (None, i2) in
  let d := if i3 + 4 <=? len data then Some (from_le (slice i3 (i3 + 4) data)) else None in
  {| zf_uncompressed := u; zf_compressed := c; zf_offset := o; zf_disk := d |}.

(** spec/extra_field.rs 208-250; [incomplete] is the error of the comment resp. path variant. *)
Definition unicode_from_bytes (incomplete : zip_error) (data_size : N) (data : bytes) : res unicode_field :=
  match data with
  | [] => Err incomplete
  | version :: _ =>
    if b2n version =? 1 then
      if len data <? 5 then Err incomplete
      else
        let? c := index 1 5 data in
        let? u := index 5 data_size data in
        Ok (UV1 (from_le c) u)
    else
      let? d := index 1 data_size data in
      Ok (UUnknown version d)
  end.

(** spec/extra_field.rs 252-271 *)
Definition extra_field_from_bytes (id data_size : N) (data : bytes) (usize csize : N) : res extra_field :=
  if id =? ID_ZIP64 then Ok (XZip64 (zip64_from_bytes data usize csize))
  else if id =? ID_UCOMMENT then
    let? u := unicode_from_bytes InfoZipUnicodeCommentFieldIncomplete data_size data in Ok (XComment u)
  else if id =? ID_UPATH then
    let? u := unicode_from_bytes InfoZipUnicodePathFieldIncomplete data_size data in Ok (XPath u)
  else Ok (XUnknown id data_size data).

(** spec/parse.rs 266-281. The [while] loop: [fuel] bounds the iterations; each one advances the
    cursor by at least four, so the length of the data is enough (ExtraFieldFacts). *)
Fixpoint parse_loop (cfg : config) (fuel : nat) (data : bytes) (cursor usize csize : N)
  : res (list extra_field) :=
  match fuel with
  | O => Panic PFuel
  | S fuel' =>
    if cursor + 4 <? len data then
      let? idb := index cursor (cursor + 2) data in
      let? szb := index (cursor + 2) (cursor + 4) data in
      let id := from_le idb in
      let field_size := from_le szb in
      if len data <? cursor + 4 + field_size then
        (* data.len() - cursor - 8 - field_size *)
        let? a := usub cfg (len data) cursor in
        let? b := usub cfg a 8 in
        let? c := usub cfg b field_size in
        Err (InvalidExtraFieldHeader field_size c)
      else
        let? payload := index (cursor + 4) (cursor + 4 + field_size) data in
        let? x := extra_field_from_bytes id field_size payload usize csize in
        let? rest := parse_loop cfg fuel' data (cursor + 4 + field_size) usize csize in
        Ok (x :: rest)
    else Ok []
  end.

Definition parse_extra_fields (cfg : config) (data : bytes) (usize csize : N) : res (list extra_field) :=
  parse_loop cfg (S (length data)) data 0 usize csize.

(** spec/extra_field.rs 273-320: the builder *)
Definition zfb_new : zip64_field :=
  {| zf_uncompressed := None; zf_compressed := None; zf_offset := None; zf_disk := None |}.
Definition zfb_sizes (z : zip64_field) (csize usize : N) : zip64_field :=
  {| zf_uncompressed := Some usize; zf_compressed := Some csize; zf_offset := zf_offset z; zf_disk := zf_disk z |}.
Definition zfb_offset (z : zip64_field) (o : N) : zip64_field :=
  {| zf_uncompressed := zf_uncompressed z; zf_compressed := zf_compressed z; zf_offset := Some o; zf_disk := zf_disk z |}.
Definition is_none {A} (o : option A) : bool := match o with None => true | Some _ => false end.
Definition zfb_eof_only (z : zip64_field) : bool :=
  (is_none (zf_uncompressed z) && is_none (zf_compressed z))
  && (negb (is_none (zf_offset z)) || negb (is_none (zf_disk z))).
Definition zfb_build (z : zip64_field) : res zip64_field :=
  if content_size z =? 0 then Err Zip64ExtendedFieldIncomplete else Ok z.
