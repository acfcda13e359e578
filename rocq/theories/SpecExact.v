(** What an archive's bytes say, record by record, with everything that a lenient reader lets pass. *)
From Verif Require Import Base SpecFormat SpecCrc SpecUtf8 SpecArchive SpecStrict ZString ZDate Headers ExtraField Entry Reader.

(** ** Records of the directory, as far as the data goes *)
Record row := {
  w_flags : N; w_method : N; w_time : N; w_date : N; w_crc : N; w_csize : N; w_usize : N; w_nlen : N; w_xlen : N;
  w_iattr : N; w_eattr : N; w_offset : N; w_name : bytes; w_fields : list (N * bytes); w_comment : bytes }.
(** up to [n] bytes, and what follows *)
Definition upto (n : N) (l : bytes) : bytes := firstn (N.to_nat n) l.
Definition past (n : N) (l : bytes) : bytes := skipn (N.to_nat n) l.
(** extra fields; up to four bytes at the end that hold no field are passed over *)
Inductive some_fields : bytes -> list (N * bytes) -> Prop :=
| sf_end l : len l <= 4 -> some_fields l []
| sf_field l id n m p r xs : 4 < len l -> nums [2; 2]%nat l = Some ([id; n], m) -> text n m = Some (p, r) -> some_fields r xs ->
    some_fields l ((id, p) :: xs).
(** [l] begins with a record; its name, fields and comment may be cut off by the end of the data *)
Inductive read_row (l : bytes) : row -> bytes -> Prop :=
| row_here made needed flags method time date crc cs us nl xl cl disk ia ea off m xs :
    nums [4; 2; 2; 2; 2; 2; 2; 4; 4; 4; 2; 2; 2; 2; 2; 4; 4]%nat l =
      Some ([0x02014b50; made; needed; flags; method; time; date; crc; cs; us; nl; xl; cl; disk; ia; ea; off], m) ->
    some_fields (upto xl (past nl m)) xs ->
    read_row l
      {| w_flags := flags; w_method := method; w_time := time; w_date := date; w_crc := crc; w_csize := cs; w_usize := us; w_nlen := nl;
         w_xlen := xl; w_iattr := ia; w_eattr := ea; w_offset := off; w_name := upto nl m; w_fields := xs;
         w_comment := upto cl (past xl (past nl m)) |}
      (past cl (past xl (past nl m))).
Inductive rows : bytes -> list row -> Prop :=
| rows_none l : rows l []
| rows_more l r m rs : read_row l r m -> rows m rs -> rows l (r :: rs).

(** ** What is made of them *)
(** the next 8 bytes, if wanted and there *)
Definition next8 (wanted : bool) (p : bytes) : option N * bytes :=
  if wanted && (8 <=? len p) then (Some (value (upto 8 p)), past 8 p) else (None, p).
(** a field of the record of sizes [us] and [cs] *)
Definition field_is (us cs : N) (f : N * bytes) (x : extra_field) : Prop :=
  let unicode u := snd f = spec_unicode u /\ match u with UV1 crc _ => crc < 0x100000000 | UUnknown v _ => b2n v <> 1 end in
  match x with
  | XZip64 z => fst f = 0x0001 /\
    let '(u, p) := next8 (us =? 0xFFFFFFFF) (snd f) in let '(c, p) := next8 (cs =? 0xFFFFFFFF) p in let '(o, p) := next8 true p in
    z = {| zf_uncompressed := u; zf_compressed := c; zf_offset := o; zf_disk := if 4 <=? len p then Some (value (upto 4 p)) else None |}
  | XComment u => fst f = 0x6375 /\ unicode u
  | XPath u => fst f = 0x7075 /\ unicode u
  | XUnknown id n c => fst f = id /\ id <> 0x0001 /\ id <> 0x6375 /\ id <> 0x7075 /\ n = len (snd f) /\ c = snd f
  end.
(** sizes and offset: a placeholder refers to the first ZIP64 field, if that is long enough *)
Definition placed (r : row) : N * N * N :=
  let p := match zip64_of (w_fields r) with Some p => p | None => [] end in
  let or v o := match o with Some w => w | None => v end in
  let '(u, p) := next8 (w_usize r =? 0xFFFFFFFF) p in
  let '(c, p) := next8 (w_csize r =? 0xFFFFFFFF) p in
  let '(o, p) := next8 (w_offset r =? 0xFFFFFFFF) p in
  (or (w_usize r) u, or (w_csize r) c, or (w_offset r) o).
Definition tells (r : row) (e : stored_entry) : Prop :=
  let z := st_entry e in
  Forall2 (field_is (w_usize r) (w_csize r)) (w_fields r) (en_extra z) /\
  reads_as XPath (N.testbit (w_flags r) 11) (en_extra z) (w_name r) (en_filename z) /\
  reads_as XComment (N.testbit (w_flags r) 11) (en_extra z) (w_comment r) (en_comment z) /\
  method_of (w_method r) = Some (en_compression z) /\ en_level z = LDefault /\ en_crc32 z = w_crc r /\
  (en_uncompressed_size z, en_compressed_size z, st_file_offset e) = placed r /\
  en_attr_compat z = Unix /\ en_date z = {| zd_date := w_date r; zd_time := w_time r |} /\
  en_iattr z = w_iattr r /\ en_eattr z = w_eattr r /\ en_data_descriptor z = N.testbit (w_flags r) 3 /\
  st_header_size e = 30 + w_nlen r + w_xlen r.

(** ** The end of the archive *)
Record ending := { n_at : N; n_locator : option N; n_count : N; n_offset : N; n_comment : bytes }.
Definition ends (d : bytes) (x : ending) : Prop :=
  (* the last signature *)
  (forall q, found_at (le 4 0x06054b50) d q -> q <= n_at x) /\
  exists d1 d2 n1 n2 size off cl rest,
    nums [4; 2; 2; 2; 2; 4; 4; 2]%nat (past (n_at x) d) = Some ([0x06054b50; d1; d2; n1; n2; size; off; cl], rest) /\
    n_comment x = upto cl rest /\
    match n_locator x with
    | None => (20 <= n_at x -> ~ found_at (le 4 0x07064b50) d (n_at x - 20)) /\
        d1 = d2 /\ n1 = n2 /\ n_count x = n1 /\ n_offset x = off
    | Some lo => 20 <= n_at x /\
        exists ldisk disks more zsize mb nd z1 z2 zn1 zn2 zsz zoff end64,
        nums [4; 4; 8; 4]%nat (past (n_at x - 20) d) = Some ([0x07064b50; ldisk; lo; disks], more) /\
        (* whatever its signature is; positions are taken modulo 2^64 *)
        nums [8; 2; 2; 4; 4; 8; 8; 8; 8]%nat (past ((lo + 4) mod 0x10000000000000000) d) =
          Some ([zsize; mb; nd; z1; z2; zn1; zn2; zsz; zoff], end64) /\
        chosen 0xFFFF d1 z1 = chosen 0xFFFF d2 z2 /\ chosen 0xFFFF n1 zn1 = chosen 0xFFFF n2 zn2 /\
        n_count x = chosen 0xFFFF n2 zn2 /\ n_offset x = chosen 0xFFFFFFFF off zoff
    end.

(** * What opening [d] should report *)
Definition says (d : bytes) (x : ending) (rs : list row) : Prop :=
  ends d x /\ rows (past (n_offset x) d) rs /\ len rs = n_count x.
Definition reports (x : ending) (rs : list row) (f : zfile) : Prop :=
  Forall2 tells rs (f_entries f) /\ f_zip64 f = match n_locator x with Some _ => true | None => false end /\
  comment_reads_as (n_comment x) (f_comment f).

(** ** How much that is *)
Fixpoint total {A} (f : A -> N) (l : list A) : N := match l with [] => 0 | a :: l => f a + total f l end.
Definition text_size (z : zstring) : N := len (zs_raw z) + match zs_alt z with Some a => len a | None => 0 end.
Definition field_size (x : extra_field) : N :=
  match x with
  | XZip64 _ => 0
  | XComment (UV1 _ t) | XPath (UV1 _ t) | XComment (UUnknown _ t) | XPath (UUnknown _ t) | XUnknown _ _ t => len t
  end.
(** bytes of text and of extra fields that an entry holds *)
Definition entry_size (e : zentry) : N := text_size (en_filename e) + text_size (en_comment e) + total field_size (en_extra e).

(** ** Local headers *)
Record top := { tp_flags : N; tp_method : N; tp_time : N; tp_date : N; tp_crc : N; tp_csize : N; tp_usize : N; tp_name : bytes; tp_fields : list (N * bytes) }.
Inductive read_top (l : bytes) : top -> bytes -> Prop :=
| top_here needed flags method time date crc cs us nl xl m xs :
    nums [4; 2; 2; 2; 2; 2; 4; 4; 4; 2; 2]%nat l = Some ([0x04034b50; needed; flags; method; time; date; crc; cs; us; nl; xl], m) ->
    some_fields (upto xl (past nl m)) xs ->
    read_top l
      {| tp_flags := flags; tp_method := method; tp_time := time; tp_date := date; tp_crc := crc; tp_csize := cs; tp_usize := us;
         tp_name := upto nl m; tp_fields := xs |}
      (past xl (past nl m)).
Definition sizes_told (t : top) : N * N :=
  let p := match zip64_of (tp_fields t) with Some p => p | None => [] end in
  let or v o := match o with Some w => w | None => v end in
  let '(u, p) := next8 (tp_usize t =? 0xFFFFFFFF) p in let '(c, p) := next8 (tp_csize t =? 0xFFFFFFFF) p in
  (or (tp_usize t) u, or (tp_csize t) c).
Definition top_tells (t : top) (z : zentry) : Prop :=
  Forall2 (field_is (tp_usize t) (tp_csize t)) (tp_fields t) (en_extra z) /\
  reads_as XPath (N.testbit (tp_flags t) 11) (en_extra z) (tp_name t) (en_filename z) /\
  en_comment z = {| zs_enc := EUtf8; zs_raw := []; zs_alt := None |} /\
  method_of (tp_method t) = Some (en_compression z) /\ en_level z = LDefault /\ en_crc32 z = tp_crc t /\
  (en_uncompressed_size z, en_compressed_size z) = sizes_told t /\
  en_attr_compat z = Unix /\ en_date z = {| zd_date := tp_date t; zd_time := tp_time t |} /\
  en_iattr z = 0 /\ en_eattr z = 0 /\ en_data_descriptor z = N.testbit (tp_flags t) 3.
(** what the stream reader cannot read *)
Definition top_readable (t : top) (z : zentry) : Prop :=
  N.testbit (tp_flags t) 0 = false /\ ~ (N.testbit (tp_flags t) 3 = true /\ en_compression z = Stored).
