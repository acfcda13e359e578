(** base/write/: writing archives. *)
From Verif Require Import Base Crc32 ZString ZDate Headers ExtraField Entry IO Reader EntryReader.

(** base/write/mod.rs 90-93 *)
Record cd_entry := { ce_header : cdr; ce_entry : zentry }.

(** base/write/mod.rs 99-107: ZipFileWriter over AsyncOffsetWriter over the caller's sink *)
Record world := {
  w_sink : sink; w_offset : N; w_cds : list cd_entry; w_force_no : bool; w_zip64 : bool;
  w_comment : option bytes }.

Definition set_sink (w : world) (k : sink) (off : N) : world :=
  {| w_sink := k; w_offset := off; w_cds := w_cds w; w_force_no := w_force_no w; w_zip64 := w_zip64 w;
     w_comment := w_comment w |}.
Definition set_zip64 (w : world) (b : bool) : world :=
  {| w_sink := w_sink w; w_offset := w_offset w; w_cds := w_cds w; w_force_no := w_force_no w; w_zip64 := b;
     w_comment := w_comment w |}.
Definition set_force_no (w : world) (b : bool) : world :=
  {| w_sink := w_sink w; w_offset := w_offset w; w_cds := w_cds w; w_force_no := b; w_zip64 := w_zip64 w;
     w_comment := w_comment w |}.
Definition set_wcomment (w : world) (c : option bytes) : world :=
  {| w_sink := w_sink w; w_offset := w_offset w; w_cds := w_cds w; w_force_no := w_force_no w; w_zip64 := w_zip64 w;
     w_comment := c |}.
Definition push_cd (w : world) (e : cd_entry) : world :=
  {| w_sink := w_sink w; w_offset := w_offset w; w_cds := w_cds w ++ [e]; w_force_no := w_force_no w;
     w_zip64 := w_zip64 w; w_comment := w_comment w |}.

(** base/write/mod.rs 111-119 [new] *)
Definition zw_new (sched : list wevent) : world :=
  {| w_sink := {| k_written := []; k_flushes := 0; k_closes := 0; k_sched := sched |};
     w_offset := 0; w_cds := []; w_force_no := false; w_zip64 := false; w_comment := None |}.

(** ** io/offset.rs: AsyncOffsetWriter around the sink *)

(** offset.rs 47-56 [poll_write] (offsets stay far below 2^64; the addition is exact) *)
Definition ow_poll_write (buf : bytes) (w : world) : wpoll * world :=
  match sink_poll_write buf (w_sink w) with
  | (WDone n, k) => (WDone n, set_sink w k (w_offset w + n))
  | (p, k) => (p, set_sink w k (w_offset w))
  end.
(** offset.rs 58-60 [poll_flush] *)
Definition ow_poll_flush (w : world) : wpoll * world :=
  let '(p, k) := sink_poll_flush (w_sink w) in (p, set_sink w k (w_offset w)).
(** offset.rs 62-64 [poll_close] *)
Definition ow_poll_close (w : world) : wpoll * world :=
  let '(p, k) := sink_poll_close (w_sink w) in (p, set_sink w k (w_offset w)).

(** await of a poll function: re-poll while pending; io errors become UpstreamReadError *)
Fixpoint wait_poll (fuel : nat) (f : world -> wpoll * world) (w : world) : res N * world :=
  match fuel with
  | O => (Panic PFuel, w)
  | S fu =>
    match f w with
    | (WPend, w') => wait_poll fu f w'
    | (WDone n, w') => (Ok n, w')
    | (WErr e, w') => (Err (UpstreamReadError e), w')
    end
  end.
Definition wait (f : world -> wpoll * world) : SM world N :=
  fun w => wait_poll (S (length (k_sched (w_sink w)))) f w.

Definition ow_write (buf : bytes) : SM world N := wait (ow_poll_write buf).
Definition ow_flush : SM world N := wait ow_poll_flush.

(** futures-lite [write_all] on the offset writer: zero bytes accepted is WriteZero *)
Fixpoint write_all_loop (fuel : nat) (buf : bytes) : SM world unit :=
  match fuel with
  | O => lift (Panic PFuel)
  | S f =>
    if len buf =? 0 then ret tt
    else n <- ow_write buf ;;
         if n =? 0 then fail (UpstreamReadError WriteZero)
         else write_all_loop f (drop n buf)
  end.
Definition write_all (buf : bytes) : SM world unit := write_all_loop (S (length buf)) buf.

(** ** shared helpers *)

(** [alternative().unwrap_or_else(|| as_bytes())] *)
Definition basic_bytes (s : zstring) : bytes :=
  match zs_alt s with Some a => a | None => zs_raw s end.

Definition is_xpath (x : extra_field) : bool := match x with XPath _ => true | _ => false end.
Definition is_xcomment (x : extra_field) : bool := match x with XComment _ => true | _ => false end.

(** first matching field is updated if it is a V1 field (mod.rs 299-303, 316-320 together with the
    [if let V1] at the use sites) *)
Fixpoint update_path (crc : N) (u : bytes) (l : list extra_field) : list extra_field :=
  match l with
  | [] => []
  | XPath (UV1 _ _) :: r => XPath (UV1 crc u) :: r
  | XPath (UUnknown v d) :: r => XPath (UUnknown v d) :: r
  | x :: r => x :: update_path crc u r
  end.
Fixpoint update_comment (crc : N) (u : bytes) (l : list extra_field) : list extra_field :=
  match l with
  | [] => []
  | XComment (UV1 _ _) :: r => XComment (UV1 crc u) :: r
  | XComment (UUnknown v d) :: r => XComment (UUnknown v d) :: r
  | x :: r => x :: update_comment crc u r
  end.

(** base/write/mod.rs 291-306 [get_or_put_info_zip_unicode_path_extra_field_mut] + assignment *)
Definition put_path (crc : N) (u : bytes) (l : list extra_field) : list extra_field :=
  let l := if existsb is_xpath l then l else l ++ [XPath (UV1 0 [])] in update_path crc u l.
(** base/write/mod.rs 308-323 *)
Definition put_comment (crc : N) (u : bytes) (l : list extra_field) : list extra_field :=
  let l := if existsb is_xcomment l then l else l ++ [XComment (UV1 0 [])] in update_comment crc u l.

Definition is_utf8 (s : zstring) : bool := match zs_enc s with EUtf8 => true | ERaw => false end.
Definition nonempty (l : bytes) : bool := match l with [] => false | _ => true end.

(** entry_whole.rs 111-147 [utf8_without_alternative] = entry_stream.rs 132-159 *)
Definition utf8_flag (e : zentry) : bool :=
  zs_utf8_no_alt (en_filename e) && zs_utf8_no_alt (en_comment e).
Definition add_unicode_fields (e : zentry) : zentry :=
  if utf8_flag e then e
  else
    let x := en_extra e in
    let x := if is_utf8 (en_filename e) && nonempty (zs_raw (en_filename e))
             then put_path (crc32 (basic_bytes (en_filename e))) (zs_raw (en_filename e)) x else x in
    let x := if is_utf8 (en_comment e) && nonempty (zs_raw (en_comment e))
             then put_comment (crc32 (basic_bytes (en_comment e))) (zs_raw (en_comment e)) x else x in
    set_extra e x.

(** [x.try_into::<u16>().map_err(|_| err)?] *)
Definition try_u16 (n : N) (e : zip_error) : res N := if n <? 65536 then Ok n else Err e.

(** ** compression (entry_whole.rs 252-297): write_all the data into an encoder over a Cursor,
    close it. An encoder that takes no bytes makes write_all fail and the [unwrap] panic. *)
Fixpoint enc_all (cd : codec) (fuel : nat) (st : est cd) (buf : bytes) : res (bytes * est cd) :=
  match fuel with
  | O => Panic PFuel
  | S f =>
    if len buf =? 0 then Ok ([], st)
    else
      let '(n, out, st') := enc_write cd st buf in
      if n =? 0 then Panic PUnwrap
      else let? x := enc_all cd f st' (drop n buf) in Ok (out ++ fst x, snd x)
  end.
Definition compress (cd : codec) (c : compression) (l : level) (data : bytes) : res bytes :=
  match c with
  | Deflate64 => Panic PUnsupported
  | Stored => Panic PUnsupported (* unreachable!() at entry_whole.rs 295; callers test for Stored *)
  | _ => let? x := enc_all cd (S (length data)) (enc_init cd c l) data in
         Ok (fst x ++ enc_finish cd (snd x))
  end.

(** ** entry_whole.rs *)

(** entry_whole.rs 100-109 [enforce_zip64] *)
Definition enforce_zip64 : SM world unit :=
  fun w => if w_force_no w then (Err (Zip64Needed LargeFile), w) else (Ok tt, set_zip64 w true).

(** entry_whole.rs 64-83 [enforce_zip64_sizes] *)
Definition enforce_zip64_sizes (e : zentry) : SM world (zentry * option zip64_field) :=
  if (NON_ZIP64_MAX_SIZE <? en_uncompressed_size e) || (NON_ZIP64_MAX_SIZE <? en_compressed_size e)
  then
    enforce_zip64 ;;;
    ret (set_compressed_size (set_uncompressed_size e NON_ZIP64_MAX_SIZE) NON_ZIP64_MAX_SIZE,
         Some (zfb_sizes zfb_new (en_compressed_size e) (en_uncompressed_size e)))
  else ret (e, None).

(** entry_whole.rs 85-98 [enforce_zip64_offset] *)
Definition enforce_zip64_offset (lh_offset : N) (builder : option zip64_field) : SM world (N * option zip64_field) :=
  if lh_offset <=? NON_ZIP64_MAX_SIZE then ret (lh_offset, builder)
  else
    enforce_zip64 ;;;
    let b := match builder with Some b => b | None => zfb_new end in
    ret (NON_ZIP64_MAX_SIZE, Some (zfb_offset b lh_offset)).

(** the final check of entry_whole.rs 230-239 / entry_stream.rs 274-284 *)
Definition push_and_check (force_no : bool) (c : cd_entry) : SM world unit :=
  modify (fun w => push_cd w c) ;;;
  w <- get ;;
  if NON_ZIP64_MAX_NUM_FILES <? len (w_cds w) then
    if force_no then fail (Zip64Needed TooManyFiles) else modify (fun w => set_zip64 w true)
  else ret tt.

(** entry_whole.rs 149-240 [write], after [self.compress()] *)
Definition whole_write_body (e : zentry) (data : bytes) : SM world unit :=
  let e := set_compressed_size e (len data) in
  '(e, builder) <- enforce_zip64_sizes e ;;
  w <- get ;;
  '(lh_offset, builder) <- enforce_zip64_offset (w_offset w) builder ;;
  '(e, builder) <-
    match builder with
    | Some b =>
      if negb (zfb_eof_only b)
      then z <- lift (zfb_build b) ;; ret (set_extra e (en_extra e ++ [XZip64 z]), None)
      else ret (e, Some b)
    | None => ret (e, None)
    end ;;
  let flag := utf8_flag e in
  let e := add_unicode_fields e in
  let filename_basic := basic_bytes (en_filename e) in
  let comment_basic := basic_bytes (en_comment e) in
  xlen <- lift (try_u16 (fields_count_bytes (en_extra e)) ExtraFieldTooLarge) ;;
  nlen <- lift (try_u16 (len filename_basic) FileNameTooLarge) ;;
  let lf_header :=
    {| l_version := as_needed_to_extract e;
       l_flags := {| gp_encrypted := false; gp_data_descriptor := false; gp_filename_unicode := flag |};
       l_compression := compression_to (en_compression e);
       l_mod_time := zd_time (en_date e); l_mod_date := zd_date (en_date e); l_crc := en_crc32 e;
       l_compressed_size := as_u32 (en_compressed_size e);
       l_uncompressed_size := as_u32 (en_uncompressed_size e);
       l_file_name_length := nlen; l_extra_field_length := xlen |} in
  clen <- lift (try_u16 (len comment_basic) CommentTooLarge) ;;
  let header xlen :=
    {| c_v_made_by := as_made_by; c_v_needed := l_version lf_header; c_flags := l_flags lf_header;
       c_compression := l_compression lf_header; c_mod_time := l_mod_time lf_header;
       c_mod_date := l_mod_date lf_header; c_crc := l_crc lf_header;
       c_compressed_size := l_compressed_size lf_header;
       c_uncompressed_size := l_uncompressed_size lf_header;
       c_file_name_length := l_file_name_length lf_header; c_extra_field_length := xlen;
       c_file_comment_length := clen; c_disk_start := 0; c_inter_attr := en_iattr e;
       c_exter_attr := en_eattr e; c_lh_offset := as_u32 lh_offset |} in
  write_all (to_le 4 LFH_SIGNATURE) ;;;
  write_all (lfh_as_slice lf_header) ;;;
  write_all filename_basic ;;;
  xb <- lift (fields_as_bytes (en_extra e)) ;;
  write_all xb ;;;
  write_all data ;;;
  '(e, xlen) <-
    match builder with
    | Some b =>
      z <- lift (zfb_build b) ;;
      let e := set_extra e (en_extra e ++ [XZip64 z]) in
      xlen <- lift (try_u16 (fields_count_bytes (en_extra e)) ExtraFieldTooLarge) ;;
      ret (e, xlen)
    | None => ret (e, xlen)
    end ;;
  w <- get ;;
  push_and_check (w_force_no w) {| ce_header := header xlen; ce_entry := e |}.

(** base/write/mod.rs 136-138 [write_entry_whole]; entry_whole.rs 149-155 and 45-62 *)
Definition write_entry_whole (cd : codec) (e : zentry) (data : bytes) : SM world unit :=
  let e := set_crc32 (set_uncompressed_size e (len data)) (crc32 data) in
  match en_compression e with
  | Stored => whole_write_body e data
  | c => z <- lift (compress cd c (en_level e) data) ;; whole_write_body e z
  end.

(** base/write/mod.rs 144-146 [write_entry_whole_precompressed] *)
Definition write_entry_whole_precompressed (e : zentry) (data : bytes) : SM world unit :=
  whole_write_body e data.

(** ** entry_stream.rs *)

(** entry_stream.rs 36-48; compressed_writer.rs 15-27: [sw_enc = None] is the Stored variant.
    [sw_uoffset] is the offset of the outer AsyncOffsetWriter. *)
Record stream_writer (cd : codec) := {
  sw_entry : zentry; sw_lfh : lfh; sw_lfh_offset : N; sw_data_offset : N; sw_hasher : hasher;
  sw_force_no : bool; sw_pre : bool; sw_uoffset : N; sw_enc : option (est cd) }.
Arguments sw_entry {cd}. Arguments sw_lfh {cd}. Arguments sw_lfh_offset {cd}. Arguments sw_data_offset {cd}.
Arguments sw_hasher {cd}. Arguments sw_force_no {cd}. Arguments sw_pre {cd}. Arguments sw_uoffset {cd}.
Arguments sw_enc {cd}.

(** entry_stream.rs 107-190 [write_lfh] *)
Definition write_lfh (e : zentry) : SM world (zentry * lfh) :=
  w <- get ;;
  '(e, csz, usz) <-
    (if negb (w_force_no w) then
       modify (fun w => set_zip64 w true) ;;;
       ret (set_extra e (en_extra e ++
              [XZip64 {| zf_uncompressed := Some (en_uncompressed_size e);
                         zf_compressed := Some (en_compressed_size e);
                         zf_offset := None; zf_disk := None |}]),
            NON_ZIP64_MAX_SIZE, NON_ZIP64_MAX_SIZE)
     else if (NON_ZIP64_MAX_SIZE <? en_compressed_size e) || (NON_ZIP64_MAX_SIZE <? en_uncompressed_size e)
     then fail (Zip64Needed LargeFile)
     else ret (e, as_u32 (en_compressed_size e), as_u32 (en_uncompressed_size e))) ;;
  let flag := utf8_flag e in
  let e := add_unicode_fields e in
  let filename_basic := basic_bytes (en_filename e) in
  xlen <- lift (try_u16 (fields_count_bytes (en_extra e)) ExtraFieldTooLarge) ;;
  nlen <- lift (try_u16 (len filename_basic) FileNameTooLarge) ;;
  let h :=
    {| l_version := as_needed_to_extract e;
       l_flags := {| gp_encrypted := false; gp_data_descriptor := true; gp_filename_unicode := flag |};
       l_compression := compression_to (en_compression e);
       l_mod_time := zd_time (en_date e); l_mod_date := zd_date (en_date e); l_crc := en_crc32 e;
       l_compressed_size := csz; l_uncompressed_size := usz;
       l_file_name_length := nlen; l_extra_field_length := xlen |} in
  write_all (to_le 4 LFH_SIGNATURE) ;;;
  write_all (lfh_as_slice h) ;;;
  write_all filename_basic ;;;
  xb <- lift (fields_as_bytes (en_extra e)) ;;
  write_all xb ;;;
  ret (e, h).

(** entry_stream.rs 51-105 [from_raw] / [from_raw_precompressed]; compressed_writer.rs 30-52 *)
Definition stream_open (cd : codec) (pre : bool) (e : zentry) : SM world (stream_writer cd) :=
  w0 <- get ;;
  let lfh_offset := w_offset w0 in
  '(e, h) <- write_lfh e ;;
  w <- get ;;
  enc <- lift (if pre then Ok None
               else match en_compression e with
                    | Stored => Ok None
                    | Deflate64 => Panic PUnsupported
                    | c => Ok (Some (enc_init cd c LDefault))
                    end) ;;
  ret {| sw_entry := e; sw_lfh := h; sw_lfh_offset := lfh_offset; sw_data_offset := w_offset w;
         sw_hasher := hasher_new; sw_force_no := w_force_no w; sw_pre := pre; sw_uoffset := 0;
         sw_enc := enc |}.

Definition sw_advance {cd} (sw : stream_writer cd) (h : hasher) (u : N) (enc : option (est cd)) : stream_writer cd :=
  {| sw_entry := sw_entry sw; sw_lfh := sw_lfh sw; sw_lfh_offset := sw_lfh_offset sw;
     sw_data_offset := sw_data_offset sw; sw_hasher := h; sw_force_no := sw_force_no sw;
     sw_pre := sw_pre sw; sw_uoffset := u; sw_enc := enc |}.

(** entry_stream.rs 289-297 [poll_write] through the outer AsyncOffsetWriter (offset.rs 47-56) and
    CompressedAsyncWriter (compressed_writer.rs 72-86, 130-132), awaited once. An encoder writes
    the output it emits to the inner offset writer before it reports the bytes it took. *)
Definition stream_write {cd} (sw : stream_writer cd) (buf : bytes) : SM world (N * stream_writer cd) :=
  match sw_enc sw with
  | None =>
    n <- ow_write buf ;;
    ret (n, sw_advance sw (hasher_update (sw_hasher sw) (take n buf)) (sw_uoffset sw + n) None)
  | Some st =>
    let '(n, out, st') := enc_write cd st buf in
    write_all out ;;;
    ret (n, sw_advance sw (hasher_update (sw_hasher sw) (take n buf)) (sw_uoffset sw + n) (Some st'))
  end.

(** futures-lite [write_all] on the stream writer *)
Fixpoint stream_write_all_loop {cd} (fuel : nat) (sw : stream_writer cd) (buf : bytes) : SM world (stream_writer cd) :=
  match fuel with
  | O => lift (Panic PFuel)
  | S f =>
    if len buf =? 0 then ret sw
    else '(n, sw') <- stream_write sw buf ;;
         if n =? 0 then fail (UpstreamReadError WriteZero)
         else stream_write_all_loop f sw' (drop n buf)
  end.
Definition stream_write_all {cd} (sw : stream_writer cd) (buf : bytes) : SM world (stream_writer cd) :=
  stream_write_all_loop (S (length buf)) sw buf.

(** entry_stream.rs 299-301 [poll_flush]: pending encoder output, then the sink is flushed *)
Definition stream_flush {cd} (sw : stream_writer cd) : SM world (stream_writer cd) :=
  match sw_enc sw with
  | None => ow_flush ;;; ret sw
  | Some st =>
    let '(out, st') := enc_flush cd st in
    write_all out ;;; ow_flush ;;; ret (sw_advance sw (sw_hasher sw) (sw_uoffset sw) (Some st'))
  end.

(** compressed_writer.rs 138-140: ShutdownIgnoredWriter::poll_close *)
Definition shutdown_ignored_close : SM world unit := ret tt.

(** compressed_writer.rs 104-118 [poll_close]: finish the encoder, then close the inner writer,
    which is the ShutdownIgnoredWriter *)
Definition compressed_close {cd} (sw : stream_writer cd) : SM world unit :=
  match sw_enc sw with
  | None => shutdown_ignored_close
  | Some st => write_all (enc_finish cd st) ;;; shutdown_ignored_close
  end.

(** the first ZIP64 field is rewritten (entry_stream.rs 222-240, read/mod.rs 108-117) *)
Fixpoint update_zip64 (usz csz off : N) (l : list extra_field) : list extra_field :=
  match l with
  | [] => []
  | XZip64 z :: r => XZip64 {| zf_uncompressed := Some usz; zf_compressed := Some csz;
                               zf_offset := Some off; zf_disk := zf_disk z |} :: r
  | x :: r => x :: update_zip64 usz csz off r
  end.
Definition put_zip64 (usz csz off : N) (l : list extra_field) : list extra_field :=
  match get_zip64_extra_field l with
  | None => l ++ [XZip64 {| zf_uncompressed := Some usz; zf_compressed := Some csz; zf_offset := Some off; zf_disk := None |}]
  | Some _ => update_zip64 usz csz off l
  end.

(** entry_stream.rs 201-285 [close] *)
Definition stream_close {cd} (sw : stream_writer cd) : SM world unit :=
  compressed_close sw ;;;
  let e := if sw_pre sw then sw_entry sw
           else set_uncompressed_size (set_crc32 (sw_entry sw) (hasher_finalize (sw_hasher sw))) (sw_uoffset sw) in
  w <- get ;;
  let compressed_size := w_offset w - sw_data_offset sw in
  '(cdr_compressed_size, cdr_uncompressed_size, lh_offset, e, xlen) <-
    (if sw_force_no sw then
       if (NON_ZIP64_MAX_SIZE <? en_uncompressed_size e) || (NON_ZIP64_MAX_SIZE <? compressed_size)
          || (NON_ZIP64_MAX_SIZE <? sw_lfh_offset sw)
       then fail (Zip64Needed LargeFile)
       else ret (as_u32 (en_uncompressed_size e), as_u32 compressed_size, as_u32 (sw_lfh_offset sw), e,
                 l_extra_field_length (sw_lfh sw))
     else
       let e := set_extra e (put_zip64 (en_uncompressed_size e) compressed_size (sw_lfh_offset sw) (en_extra e)) in
       xlen <- lift (try_u16 (fields_count_bytes (en_extra e)) ExtraFieldTooLarge) ;;
       ret (NON_ZIP64_MAX_SIZE, NON_ZIP64_MAX_SIZE, NON_ZIP64_MAX_SIZE, e, xlen)) ;;
  write_all (to_le 4 DATA_DESCRIPTOR_SIGNATURE) ;;;
  write_all (to_le 4 (en_crc32 e)) ;;;
  write_all (to_le 4 cdr_compressed_size) ;;;
  write_all (to_le 4 cdr_uncompressed_size) ;;;
  let comment_basic := basic_bytes (en_comment e) in
  clen <- lift (try_u16 (len comment_basic) CommentTooLarge) ;;
  let h := sw_lfh sw in
  let cdh :=
    {| c_v_made_by := as_made_by; c_v_needed := l_version h; c_flags := l_flags h;
       c_compression := l_compression h; c_mod_time := l_mod_time h; c_mod_date := l_mod_date h;
       c_crc := en_crc32 e; c_compressed_size := cdr_compressed_size;
       c_uncompressed_size := cdr_uncompressed_size; c_file_name_length := l_file_name_length h;
       c_extra_field_length := xlen; c_file_comment_length := clen; c_disk_start := 0;
       c_inter_attr := en_iattr e; c_exter_attr := en_eattr e; c_lh_offset := lh_offset |} in
  push_and_check (sw_force_no sw) {| ce_header := cdh; ce_entry := e |}.

(** ** base/write/mod.rs 189-271 [close] *)

(** mod.rs 192-202: one central directory record *)
Definition write_cd_entry (c : cd_entry) : SM world unit :=
  let e := ce_entry c in
  write_all (to_le 4 CDH_SIGNATURE) ;;;
  write_all (cdr_as_slice (ce_header c)) ;;;
  write_all (basic_bytes (en_filename e)) ;;;
  xb <- lift (fields_as_bytes (en_extra e)) ;;
  write_all xb ;;;
  write_all (basic_bytes (en_comment e)).
Fixpoint write_cd_entries (l : list cd_entry) : SM world unit :=
  match l with
  | [] => ret tt
  | c :: r => write_cd_entry c ;;; write_cd_entries r
  end.

Definition zw_close : SM world unit :=
  w <- get ;;
  let cd_offset := w_offset w in
  write_cd_entries (w_cds w) ;;;
  w <- get ;;
  let cd_size := w_offset w - cd_offset in
  let cd_size_u32 := if NON_ZIP64_MAX_SIZE <? cd_size then NON_ZIP64_MAX_SIZE else as_u32 cd_size in
  let num := len (w_cds w) in
  let num_u16 := if NON_ZIP64_MAX_NUM_FILES <? num then NON_ZIP64_MAX_NUM_FILES else as_u16 num in
  cd_offset_u32 <-
    (if NON_ZIP64_MAX_SIZE <? cd_offset then
       if w_force_no w then fail (Zip64Needed LargeFile)
       else modify (fun w => set_zip64 w true) ;;; ret NON_ZIP64_MAX_SIZE
     else ret (as_u32 cd_offset)) ;;
  w <- get ;;
  (if w_zip64 w then
     let eocdr_offset := w_offset w in
     write_all (to_le 4 ZIP64_EOCDR_SIGNATURE) ;;;
     write_all (z64_eocdr_as_bytes
       {| z_size := 44; z_version_made_by := as_made_by; z_version_needed := 46; z_disk_number := 0;
          z_disk_number_start_of_cd := 0; z_num_entries_on_disk := num; z_num_entries := num;
          z_directory_size := cd_size; z_offset := cd_offset |}) ;;;
     write_all (to_le 4 ZIP64_EOCDL_SIGNATURE) ;;;
     write_all (z64_eocdl_as_bytes {| zl_disk := 0; zl_relative_offset := eocdr_offset; zl_total_disks := 1 |})
   else ret tt) ;;;
  write_all (to_le 4 EOCDR_SIGNATURE) ;;;
  write_all (eocdr_as_slice
    {| e_disk_num := 0; e_start_cent_dir_disk := 0; e_num_of_entries_disk := num_u16;
       e_num_of_entries := num_u16; e_size_cent_dir := cd_size_u32; e_cent_dir_offset := cd_offset_u32;
       e_file_comm_length := match w_comment w with Some c => as_u16 (len c) | None => 0 end |}) ;;;
  match w_comment w with Some c => write_all c | None => ret tt end.

(** ** Histories: what a caller can do between [new] and [close]. *)

(** operations on an open stream entry *)
Inductive stream_op := SWriteAll (b : bytes) | SFlush.

Inductive wop :=
| OpForceNoZip64                                       (* mod.rs 123-126 *)
| OpForceZip64                                         (* mod.rs 130-133 *)
| OpComment (c : bytes)                                (* mod.rs 170-172 *)
| OpWhole (e : zentry) (data : bytes)
| OpWholePre (e : zentry) (data : bytes)
| OpStream (pre : bool) (e : zentry) (body : list stream_op) (closed : bool).
  (* open, perform the body, then close or drop; the first error abandons the entry *)

Fixpoint stream_body {cd} (sw : stream_writer cd) (l : list stream_op) : SM world (stream_writer cd) :=
  match l with
  | [] => ret sw
  | SWriteAll b :: r => sw <- stream_write_all sw b ;; stream_body sw r
  | SFlush :: r => sw <- stream_flush sw ;; stream_body sw r
  end.

Definition run_op (cd : codec) (o : wop) : SM world unit :=
  match o with
  | OpForceNoZip64 => modify (fun w => set_force_no w true)
  | OpForceZip64 => modify (fun w => set_zip64 w true)
  | OpComment c => modify (fun w => set_wcomment w (Some c))
  | OpWhole e d => write_entry_whole cd e d
  | OpWholePre e d => write_entry_whole_precompressed e d
  | OpStream pre e body closed =>
    sw <- stream_open cd pre e ;;
    sw <- stream_body sw body ;;
    if closed then stream_close sw else ret tt
  end.

(** Run a history, recording the outcome of each operation; the caller carries on after errors. *)
Fixpoint run_ops (cd : codec) (l : list wop) (w : world) : list (wop * res unit) * world :=
  match l with
  | [] => ([], w)
  | o :: r =>
    let '(x, w') := run_op cd o w in
    let '(xs, w'') := run_ops cd r w' in
    ((o, x) :: xs, w'')
  end.

(** A history followed by [close]: outcomes, result of close, and the final state. *)
Definition run_archive (cd : codec) (sched : list wevent) (l : list wop)
  : list (wop * res unit) * res unit * world :=
  let '(xs, w) := run_ops cd l (zw_new sched) in
  let '(r, w') := zw_close w in
  (xs, r, w').

(** the bytes the caller's sink holds *)
Definition w_bytes (w : world) : bytes := k_written (w_sink w).
