(** What an archive writer should put down for an entry (APPNOTE 4.3.7-4.3.12, 4.5.3, 4.6.8, 4.6.9), stated
    without reference to the writer's functions; only the types of its arguments are shared. *)
From Verif Require Import Base IO Writer SpecFormat SpecCrc SpecUtf8 SpecArchive SpecRead ZString ZDate Headers ExtraField Entry EntryReader.

(** ** Names and comments *)
(** the bytes that go into the classic field: the alternative if there is one *)
Definition stored_bytes (s : zstring) : bytes := match zs_alt s with Some a => a | None => zs_raw s end.
Definition plain_text (s : zstring) : Prop := zs_enc s = EUtf8 /\ zs_alt s = None.

(** a list of extra fields gets an Info-ZIP Unicode field for [basic]: a new one at the end, or the first
    existing one is overwritten, unless that one has an unknown version *)
Definition none_of (mk : unicode_field -> extra_field) (l : list extra_field) : Prop := Forall (fun x => forall u, x <> mk u) l.
Inductive told (mk : unicode_field -> extra_field) (basic text : bytes) : list extra_field -> list extra_field -> Prop :=
| told_new xs : none_of mk xs -> told mk basic text xs (xs ++ [mk (UV1 (crc32_spec basic) text)])
| told_over a crc old b : none_of mk a ->
    told mk basic text (a ++ mk (UV1 crc old) :: b) (a ++ mk (UV1 (crc32_spec basic) text) :: b)
| told_not a v d b : none_of mk a -> told mk basic text (a ++ mk (UUnknown v d) :: b) (a ++ mk (UUnknown v d) :: b).
Inductive spelled (mk : unicode_field -> extra_field) (s : zstring) : list extra_field -> list extra_field -> Prop :=
| spelled_text xs ys : zs_enc s = EUtf8 -> zs_raw s <> [] -> told mk (stored_bytes s) (zs_raw s) xs ys -> spelled mk s xs ys
| spelled_not xs : zs_enc s <> EUtf8 \/ zs_raw s = [] -> spelled mk s xs xs.
(** bit 11 stands for both strings; only if it cannot be used are Unicode fields written *)
Inductive texts (name comment : zstring) : bool -> list extra_field -> list extra_field -> Prop :=
| texts_flag xs : plain_text name -> plain_text comment -> texts name comment true xs xs
| texts_fields xs ys zs : ~ (plain_text name /\ plain_text comment) -> spelled XPath name xs ys ->
    spelled XComment comment ys zs -> texts name comment false xs zs.

(** ** One entry as it is written *)
Record item := {
  i_stream : bool;      (* streamed (data descriptor) or whole *)
  i_no64 : bool;        (* ZIP64 was forbidden *)
  i_entry : zentry;     (* what the caller gave: name, comment, method, date, attributes, extra fields *)
  i_usize : N; i_crc : N; i_data : bytes;
  i_off : N }.          (* where the local header is *)
Definition i_csize (it : item) : N := len (i_data it).
Definition i_name (it : item) : bytes := stored_bytes (en_filename (i_entry it)).
Definition i_comment (it : item) : bytes := stored_bytes (en_comment (i_entry it)).

Definition is_over (n : N) : bool := 0xFFFFFFFF <? n.
Definition i_big (it : item) : bool := is_over (i_usize it) || is_over (i_csize it).

(** APPNOTE 4.4.3.2 *)
Definition method_version (c : compression) : N :=
  match c with Deflate => 20 | Deflate64 => 21 | Bz => 46 | Lzma => 63 | _ => 10 end.
Definition names_directory (s : zstring) : Prop := zs_enc s = EUtf8 /\ exists p, zs_raw s = p ++ [x2f].
Definition needs (e : zentry) (v : N) : Prop :=
  (names_directory (en_filename e) /\ v = N.max (method_version (en_compression e)) 20) \/
  (~ names_directory (en_filename e) /\ v = method_version (en_compression e)).

(** ZIP64 fields of the local header and of the central directory *)
Definition zip64_extra (u c o : option N) : extra_field :=
  XZip64 {| zf_uncompressed := u; zf_compressed := c; zf_offset := o; zf_disk := None |}.
Definition local_zip64 (it : item) : list extra_field :=
  if i_stream it
  then if i_no64 it then []
       else [zip64_extra (Some (en_uncompressed_size (i_entry it))) (Some (en_compressed_size (i_entry it))) None]
  else if i_big it
       then [zip64_extra (Some (i_usize it)) (Some (i_csize it)) (when (is_over (i_off it)) (i_off it))]
       else [].
(** the local header with its name and extra field [lx] *)
Definition local_image (it : item) (version : N) (flag : bool) (lx : list extra_field) : bytes :=
  let e := i_entry it in
  let sat b v := if b : bool then 0xFFFFFFFF else v in
  local_header version (flag_word false (i_stream it) flag) (compression_to (en_compression e))
    (zd_time (en_date e)) (zd_date (en_date e))
    (if i_stream it then en_crc32 e else i_crc it)
    (if i_stream it then sat (negb (i_no64 it)) (en_compressed_size e) else sat (i_big it) (i_csize it))
    (if i_stream it then sat (negb (i_no64 it)) (en_uncompressed_size e) else sat (i_big it) (i_usize it))
    (len (i_name it)) (len (spec_extras lx))
  ++ i_name it ++ spec_extras lx.

(** The sizes put down. A stream entry written with ZIP64 forbidden has them exchanged (entry_stream.rs
    228-229 against 249-252): both the descriptor and the central directory. *)
Definition i_swapped (it : item) : bool := i_stream it && i_no64 it.
Definition put_csize (it : item) : N := if i_swapped it then i_usize it else i_csize it.
Definition put_usize (it : item) : N := if i_swapped it then i_csize it else i_usize it.
Definition descriptor_image (it : item) : bytes :=
  if i_stream it then
    data_descriptor32 (i_crc it) (if i_no64 it then put_csize it else 0xFFFFFFFF) (if i_no64 it then put_usize it else 0xFFFFFFFF)
  else [].

(** the central directory record, and the whole entry: [flag] is bit 11, [lx] the local extra fields *)
Definition in64 (it : item) : bool := if i_stream it then negb (i_no64 it) else i_big it.
Definition off64 (it : item) : bool := if i_stream it then negb (i_no64 it) else is_over (i_off it).
Record laid_out (it : item) (a : member) (version : N) (flag : bool) (lx : list extra_field) : Prop := {
  lo_version : needs (i_entry it) version;
  lo_local : texts (en_filename (i_entry it)) (en_comment (i_entry it)) flag (en_extra (i_entry it) ++ local_zip64 it) lx;
  lo_made_by : a_made_by a = 0x033F;
  lo_needed : a_needed a = version;
  lo_flags : a_flags a = flag_word false (i_stream it) flag;
  lo_method : a_method a = en_compression (i_entry it);
  lo_time : a_time a = zd_time (en_date (i_entry it));
  lo_date : a_date a = zd_date (en_date (i_entry it));
  lo_crc : a_crc a = i_crc it;
  lo_usize : a_usize a = put_usize it;
  lo_csize : a_csize a = put_csize it;
  lo_offset : a_offset a = i_off it;
  lo_disk : a_disk a = 0;
  lo_u64 : a_u64 a = in64 it;
  lo_c64 : a_c64 a = in64 it;
  lo_o64 : a_o64 a = off64 it;
  lo_d64 : a_d64 a = false;
  lo_iattr : a_iattr a = en_iattr (i_entry it);
  lo_eattr : a_eattr a = en_eattr (i_entry it);
  lo_name : a_name a = i_name it;
  lo_comment : a_comment a = i_comment it;
  (* the extra fields of the directory are those of the local header but for the ZIP64 one *)
  lo_extras : exists before after, lx = before ++ local_zip64 it ++ after /\
      a_before a = before ++ (if negb (in64 it) && off64 it then after else []) /\
      a_after a = (if negb (in64 it) && off64 it then [] else after);
  lo_fits : len (i_name it) < 0x10000 /\ len (i_comment it) < 0x10000 /\ len (spec_extras lx) < 0x10000 /\
            len (spec_extras (a_extras a)) < 0x10000 }.

(** ** Which entries a history should leave *)
(** external compression: what an encoder that was fed [fed] has emitted *)
Inductive enc_runs (cd : codec) : est cd -> bytes -> bytes -> est cd -> Prop :=
| runs_nil st : enc_runs cd st [] [] st
| runs_write st b n o st1 fed out st2 : enc_write cd st b = (n, o, st1) -> enc_runs cd st1 fed out st2 ->
    enc_runs cd st (firstn (N.to_nat n) b ++ fed) (o ++ out) st2
| runs_flush st o st1 fed out st2 : enc_flush cd st = (o, st1) -> enc_runs cd st1 fed out st2 ->
    enc_runs cd st fed (o ++ out) st2.
(** the law asked of it: an encoder takes something of what it is offered; decoding what it emitted,
    whatever follows, gives back what it was fed and ends where its output ended *)
Definition enc_takes (cd : codec) : Prop :=
  forall st b, b <> [] -> let '(n, _, _) := enc_write cd st b in 0 < n /\ n <= len b.
Definition codec_ok (cd : codec) : Prop :=
  enc_takes cd /\
  (forall c level fed out st rest, c <> Stored -> c <> Deflate64 -> enc_runs cd (enc_init cd c level) fed out st ->
     dec cd c ((out ++ enc_finish cd st) ++ rest) = (fed, Some (len (out ++ enc_finish cd st)))).

(** compressed form of [content] *)
Inductive compressed (cd : codec) (c : compression) : bytes -> bytes -> Prop :=
| comp_stored content : c = Stored -> compressed cd c content content
| comp_encoded level content out st : c <> Stored -> c <> Deflate64 -> enc_runs cd (enc_init cd c level) content out st ->
    compressed cd c content (out ++ enc_finish cd st).

Definition fed_bytes (l : list stream_op) : bytes :=
  concat (map (fun o => match o with SWriteAll b => b | SFlush => [] end) l).

(** the entry an operation should leave, given whether ZIP64 is forbidden; [content] is what the caller
    handed over (for precompressed data: already compressed) *)
Inductive leaves (cd : codec) (no64 : bool) : wop -> item -> Prop :=
| leaves_whole e data z off : compressed cd (en_compression e) data z ->
    leaves cd no64 (OpWhole e data)
      {| i_stream := false; i_no64 := no64; i_entry := e; i_usize := len data; i_crc := crc32_spec data; i_data := z; i_off := off |}
| leaves_pre e z off :
    leaves cd no64 (OpWholePre e z)
      {| i_stream := false; i_no64 := no64; i_entry := e; i_usize := en_uncompressed_size e; i_crc := en_crc32 e; i_data := z; i_off := off |}
| leaves_stream e body z off : compressed cd (en_compression e) (fed_bytes body) z ->
    leaves cd no64 (OpStream false e body true)
      {| i_stream := true; i_no64 := no64; i_entry := e; i_usize := len (fed_bytes body); i_crc := crc32_spec (fed_bytes body);
         i_data := z; i_off := off |}
| leaves_stream_pre e body off :
    leaves cd no64 (OpStream true e body true)
      {| i_stream := true; i_no64 := no64; i_entry := e; i_usize := en_uncompressed_size e; i_crc := en_crc32 e;
         i_data := fed_bytes body; i_off := off |}.

(** the operations that should leave an entry: those that succeeded (an unclosed stream leaves none) *)
Definition writes_entry (o : wop) : bool :=
  match o with OpWhole _ _ | OpWholePre _ _ => true | OpStream _ _ _ closed => closed | _ => false end.
Definition worked (r : res unit) : bool := match r with Ok _ => true | _ => false end.
Definition no_after (fn : bool) (o : wop) : bool := match o with OpForceNoZip64 => true | _ => fn end.
Fixpoint succeeded (no64 : bool) (l : list (wop * res unit)) : list (bool * wop) :=
  match l with
  | [] => []
  | (o, r) :: l => (if writes_entry o && worked r then [(no64, o)] else []) ++ succeeded (no_after no64 o) l
  end.
(** A call refused because there are too many files has already put its record into the list of records. *)
Definition too_many (r : res unit) : bool :=
  match r with Err (Zip64Needed TooManyFiles) => true | _ => false end.
Fixpoint recorded (no64 : bool) (l : list (wop * res unit)) : list (bool * wop) :=
  match l with
  | [] => []
  | (o, r) :: l => (if writes_entry o && (worked r || too_many r) then [(no64, o)] else []) ++ recorded (no_after no64 o) l
  end.
(** the archive comment: the last one given *)
Definition comment_after (c : option bytes) (o : wop) : option bytes := match o with OpComment s => Some s | _ => c end.
Definition comment_bytes (c : option bytes) : bytes := match c with Some s => s | None => [] end.
Definition last_comment (l : list wop) : bytes := comment_bytes (fold_left comment_after l None).

(** values have their Rust types *)
Definition entry_wt (e : zentry) : Prop :=
  zd_date (en_date e) < 0x10000 /\ zd_time (en_date e) < 0x10000 /\ en_crc32 e < 0x100000000 /\
  en_uncompressed_size e < 0x10000000000000000 /\ en_compressed_size e < 0x10000000000000000 /\
  en_iattr e < 0x10000 /\ en_eattr e < 0x100000000.
(** an entry as a caller makes it: no ZIP64 field of its own *)
Definition entry_fine (e : zentry) : Prop := entry_wt e /\ Forall plain_field (en_extra e).
Definition op_entry (o : wop) : option zentry :=
  match o with OpWhole e _ | OpWholePre e _ | OpStream _ e _ _ => Some e | _ => None end.
Definition op_fine (o : wop) : Prop := match op_entry o with Some e => entry_fine e | None => True end.

(** lengths fit the counters *)
Definition op_sized (o : wop) : Prop :=
  match o with
  | OpWhole _ d => len d < 0x10000000000000000
  | OpStream _ _ body _ => len (fed_bytes body) < 0x10000000000000000
  | _ => True
  end.
Definition op_good (o : wop) : Prop := op_fine o /\ op_sized o.

(** an entry sits in an archive *)
Definition sits (d : bytes) (it : item) (version : N) (flag : bool) (lx : list extra_field) : Prop :=
  exists before after, d = before ++ local_image it version flag lx ++ i_data it ++ descriptor_image it ++ after /\
    len before = i_off it.

(** ** Sinks and callers *)
(** a sink without faults: every write takes something *)
Definition obliging (l : list wevent) : Prop :=
  Forall (fun ev => match ev with WPending => True | WAccept n => n <> 0 | WFail _ => False end) l.
(** the calls a history makes, [close] last *)
Definition calls (cd : codec) (l : list wop) : list (SM world unit) := map (run_op cd) l ++ [zw_close].
(** a caller that stops at results [stop] tells it to stop at *)
Fixpoint run_until (stop : res unit -> bool) (l : list (SM world unit)) (w : world) : list (res unit) * world :=
  match l with
  | [] => ([], w)
  | m :: l =>
    let '(r, w1) := m w in
    if stop r then ([r], w1) else let '(rs, w2) := run_until stop l w1 in (r :: rs, w2)
  end.
Definition upstream (r : res unit) : Prop := exists io, r = Err (UpstreamReadError io).
Definition prefix_of (a b : bytes) : Prop := exists c, b = a ++ c.
Definition no_panic {A} (r : res A) : Prop := forall p, r <> Panic p.
(** calls that ask for Deflate64 compression *)
Definition asks_deflate64 (o : wop) : Prop :=
  match o with
  | OpWhole e _ => en_compression e = Deflate64
  | OpStream false e _ _ => en_compression e = Deflate64
  | _ => False
  end.

(** ** The end of an archive (APPNOTE 4.3.14-4.3.16) *)
(** one disk; [n] entries in a directory of [cd_size] bytes at [cd_off]; values that do not fit the classic
    record are saturated *)
Definition archive_end (zip64 : bool) (n cd_size cd_off : N) (comment : bytes) : bytes :=
  (if zip64 then zip64_end 44 0x033F 46 0 0 n n cd_size cd_off ++ zip64_end_locator 0 (cd_off + cd_size) 1 else []) ++
  end_record 0 0 (N.min n 0xFFFF) (N.min n 0xFFFF) (N.min cd_size 0xFFFFFFFF) (N.min cd_off 0xFFFFFFFF) (len comment mod 0x10000) ++
  comment.

(** an entry of an archive: its directory record and where it sits *)
Definition written_in (d : bytes) (it : item) (a : member) : Prop :=
  exists version flag lx, laid_out it a version flag lx /\ sits d it version flag lx.

(** The end of the archive can be told: the comment fits its length field, nothing after the start of the end
    record looks like one, and without a ZIP64 locator nothing looks like one. *)
Definition end_clear (zip64 : bool) (comment d : bytes) : Prop :=
  len comment <= 65535 /\ (forall q, found_at (le 4 0x06054b50) d q -> q + 22 + len comment <= len d) /\
  (zip64 = false -> forall q, found_at (le 4 0x07064b50) d q -> q + 42 + len comment <> len d).
(** sizes that cannot be taken for the placeholder: none of a whole entry is exactly 0xFFFFFFFF *)
Definition size_clear (it : item) : Prop := i_stream it = false -> i_usize it <> 0xFFFFFFFF /\ i_csize it <> 0xFFFFFFFF.

(** ** Reading back *)
(** sizes are where they belong (see [i_swapped]) *)
Definition straight (it : item) : Prop := i_swapped it = true -> i_csize it = i_usize it.
(** the entry [st] an archive [d] has for item [it] *)
Definition as_written (d : bytes) (it : item) (st : stored_entry) : Prop :=
  let z := st_entry st in
  let e := i_entry it in
  stored_bytes (en_filename z) = i_name it /\ stored_bytes (en_comment z) = i_comment it /\
  en_compression z = en_compression e /\ en_date z = en_date e /\ en_iattr z = en_iattr e /\ en_eattr z = en_eattr e /\
  en_data_descriptor z = i_stream it /\
  en_crc32 z = i_crc it /\ en_uncompressed_size z = put_usize it /\ en_compressed_size z = put_csize it /\
  st_file_offset st = i_off it /\ has_local_header d st /\
  (exists after, d = firstn (N.to_nat (data_start d (i_off it))) d ++ i_data it ++ after).
(** what reading the entry an operation leaves should give *)
Definition packs (cd : codec) (e : zentry) (z data : bytes) : Prop :=
  decoded cd (en_compression e) z = (data, true) /\ crc32_spec data = en_crc32 e.
Inductive holds (cd : codec) : wop -> bytes -> Prop :=
| holds_whole e data : holds cd (OpWhole e data) data
| holds_stream e body : holds cd (OpStream false e body true) (fed_bytes body)
| holds_pre e z data : packs cd e z data -> holds cd (OpWholePre e z) data
| holds_stream_pre e body data : packs cd e (fed_bytes body) data -> holds cd (OpStream true e body true) data.

(** ** Texts read back *)
(** a string as a caller can make it *)
Definition sound_string (s : zstring) : Prop := (zs_enc s = EUtf8 -> is_utf8 (zs_raw s)) /\ (zs_enc s = ERaw -> zs_alt s = None).
(** [t] is [s] read back: the same bytes; UTF-8 stays UTF-8 with its alternative; raw bytes that are not ASCII stay raw *)
Definition same_text (s t : zstring) : Prop :=
  zs_raw t = zs_raw s /\ (zs_enc s = EUtf8 -> zs_enc t = EUtf8) /\ (forall a, zs_alt s = Some a -> zs_alt t = Some a) /\
  (zs_enc s = ERaw -> ~ ascii (zs_raw s) -> zs_enc t = ERaw) /\ stored_bytes t = stored_bytes s.
(** The caller's extra fields let the string through: either a Unicode field can be put down for it (there is none of
    an unknown version in the way), or it needs none and no stale field speaks for it. *)
Definition text_clear (mk : unicode_field -> extra_field) (s : zstring) (xs : list extra_field) : Prop :=
  (zs_enc s = EUtf8 /\ zs_raw s <> [] /\
   (none_of mk xs \/ exists a crc old b, xs = a ++ mk (UV1 crc old) :: b /\ none_of mk a)) \/
  (zs_alt s = None /\ (zs_enc s = EUtf8 -> ascii (zs_raw s)) /\ no_text mk (zs_raw s) xs).
(** what the caller's fields must be for name and comment to come back as they were given *)
Definition texts_clear (e : zentry) : Prop :=
  sound_string (en_filename e) /\ sound_string (en_comment e) /\
  (plain_text (en_filename e) /\ plain_text (en_comment e) \/
   text_clear XPath (en_filename e) (en_extra e) /\ text_clear XComment (en_comment e) (en_extra e)).
Definition texts_kept (it : item) (st : stored_entry) : Prop :=
  texts_clear (i_entry it) ->
  same_text (en_filename (i_entry it)) (en_filename (st_entry st)) /\ same_text (en_comment (i_entry it)) (en_comment (st_entry st)).

(** sizes of whole entries cannot be taken for the placeholder: the archive is short, or none is exactly 0xFFFFFFFF *)
Definition sizes_tell (cd : codec) (d : bytes) (l : list (bool * wop)) : Prop :=
  len d <= 0xFFFFFFFF \/ Forall (fun x => forall it, leaves cd (fst x) (snd x) it -> size_clear it) l.

(** The archive [d] a history leaves can be told for what it is: its end is clear, no size looks like a placeholder, no
    refused entry is in a ZIP64 directory; and it fits the counters and the reader's memory. *)
Definition unambiguous (cd : codec) (cfg : config) (l : list wop) (xs : list (wop * res unit)) (zip64 : bool) (d : bytes) : Prop :=
  len d < 0x10000000000000000 /\ (zip64 = true -> Forall (fun x => too_many (snd x) = false) xs) /\
  sizes_tell cd d (succeeded false xs) /\ end_clear zip64 (last_comment l) d /\
  len (succeeded false xs) * entry_mem_size cfg <= 0x7FFFFFFFFFFFFFFF.
(** closed streams apart, a stream writer that was dropped *)
Definition dropped (o : wop) : bool := match o with OpStream _ _ _ closed => negb closed | _ => false end.
(** calls that should have left an entry and failed *)
Definition refused (x : wop * res unit) : bool := writes_entry (fst x) && negb (worked (snd x)).
(** nothing about an entry needs ZIP64, and nothing of ZIP64 is put down for it *)
Definition classic (it : item) (a : member) : Prop :=
  a_zip64 a = [] /\ local_zip64 it = [] /\ i_usize it <= 0xFFFFFFFF /\ i_csize it <= 0xFFFFFFFF /\ i_off it <= 0xFFFFFFFF.
(** the entry's directory record carries in its ZIP64 field every value that does not fit *)
Definition told64 (it : item) (a : member) : Prop :=
  (is_over (i_usize it) || is_over (i_csize it) = true ->
     exists o, a_zip64 a = [zip64_extra (Some (i_usize it)) (Some (i_csize it)) o] /\ In (zip64_extra (Some (i_usize it)) (Some (i_csize it)) o) (a_extras a)) /\
  (is_over (i_off it) = true -> exists u c, a_zip64 a = [zip64_extra u c (Some (i_off it))] /\ In (zip64_extra u c (Some (i_off it))) (a_extras a)).
(** the item a closed stream entry should leave *)
Definition streamed (no64 : bool) (e : zentry) (fed z : bytes) (off : N) : item :=
  {| i_stream := true; i_no64 := no64; i_entry := e; i_usize := len fed; i_crc := crc32_spec fed; i_data := z; i_off := off |}.
(** where an entry's headers and data are, and what the reader says about it *)
Definition header_tells (d : bytes) (it : item) (a : member) (v : N) (f : bool) (lx : list extra_field) (st : stored_entry) : Prop :=
  (exists before after, d = before ++ local_image it v f lx ++ i_data it ++ after /\ len before = st_file_offset st /\
     data_start d (st_file_offset st) = st_file_offset st + len (local_image it v f lx)) /\
  (len (spec_extras lx) = len (spec_extras (a_extras a)) -> st_file_offset st + st_header_size st = data_start d (st_file_offset st)) /\
  (local_zip64 it = a_zip64 a -> lx = a_extras a).

(** ** Outcomes of whole entries *)
(** an extra field without a disk number *)
Definition no_disk (x : extra_field) : Prop := match x with XZip64 z => zf_disk z = None | _ => True end.
Definition whole_call (o : wop) : Prop := match o with OpWhole e _ => en_compression e <> Deflate64 | OpWholePre _ _ => True | _ => False end.
Definition size_error (x : zip_error) : Prop := x = ExtraFieldTooLarge \/ x = FileNameTooLarge \/ x = CommentTooLarge.
(** [r] and [w'] are what writing the whole entry [it] with local extra fields [lx] should give *)
Definition outcome_of (w : world) (it : item) (lx : list extra_field) (r : res unit) (w' : world) : Prop :=
  if (i_big it || is_over (i_off it)) && w_force_no w then r = Err (Zip64Needed LargeFile) /\ w' = w
  else if 65535 <? len (spec_extras lx) then r = Err ExtraFieldTooLarge /\ w_sink w' = w_sink w /\ w_cds w' = w_cds w
  else if 65535 <? len (i_name it) then r = Err FileNameTooLarge /\ w_sink w' = w_sink w /\ w_cds w' = w_cds w
  else if 65535 <? len (i_comment it) then r = Err CommentTooLarge /\ w_sink w' = w_sink w /\ w_cds w' = w_cds w
  else (forall x, r = Err x -> size_error x -> is_over (i_off it) = true /\ i_big it = false /\ x = ExtraFieldTooLarge /\ w_cds w' = w_cds w /\
          65535 < len (spec_extras lx) + 12) /\
       (k_sched (w_sink w) = [] -> is_over (i_off it) = false \/ i_big it = true \/ len (spec_extras lx) + 12 <= 65535 ->
          r = if (65535 <? len (w_cds w) + 1) && w_force_no w then Err (Zip64Needed TooManyFiles) else Ok tt).
