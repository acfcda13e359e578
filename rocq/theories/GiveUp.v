(** Calls that are given up: the future of a writer call is dropped while it is pending (a timeout, [select], a lost connection).
    The model of Writer.v has every call polled until it is ready. Here a caller has patience for some number of pending polls and drops
    the future at the next one. No function of base/write/ polls two things at once, so a pending poll of the sink is a pending poll of
    the call, which goes on at the same place when it is polled again. Dropping runs no code: no type of base/write/ implements Drop. *)
From Verif Require Import Base Crc32 ZString ZDate Headers ExtraField Entry IO Reader EntryReader Writer.

(** what the caller sees of a call: its result, or nothing because it left *)
Inductive seen (A : Type) := Finished (r : res A) | Left.
Arguments Finished {A}. Arguments Left {A}.
(** a call under the patience of its caller: how many pending polls it still puts up with *)
Definition DM (A : Type) : Type := nat -> world -> seen A * nat * world.
Definition dbind {A B} (m : DM A) (f : A -> DM B) : DM B :=
  fun n w => match m n w with
             | (Finished (Ok a), n', w') => f a n' w'
             | (Finished (Err e), n', w') => (Finished (Err e), n', w')
             | (Finished (Panic p), n', w') => (Finished (Panic p), n', w')
             | (Left, n', w') => (Left, n', w')
             end.
(** code between two awaits *)
Definition now {A} (m : SM world A) : DM A := fun n w => let '(r, w') := m w in (Finished r, n, w').
Notation "x <~ m ;; k" := (dbind m (fun x => k)) (at level 61, m at next level, right associativity).
Notation "' p <~ m ;; k" := (dbind m (fun x => match x with p => k end)) (at level 61, p pattern, m at next level, right associativity).
Notation "m ~;; k" := (dbind m (fun _ => k)) (at level 61, right associativity).

(** await of a poll function *)
Fixpoint d_wait_poll (fuel : nat) (f : world -> wpoll * world) : DM N :=
  match fuel with
  | O => now (lift (Panic PFuel))
  | S fu => fun n w =>
    match f w with
    | (WPend, w') => match n with O => (Left, O, w') | S n => d_wait_poll fu f n w' end
    | (WDone k, w') => (Finished (Ok k), n, w')
    | (WErr e, w') => (Finished (Err (UpstreamReadError e)), n, w')
    end
  end.
Definition d_wait (f : world -> wpoll * world) : DM N := fun n w => d_wait_poll (S (length (k_sched (w_sink w)))) f n w.
(** offset.rs 47-60, awaited *)
Definition d_write (buf : bytes) : DM N := d_wait (ow_poll_write buf).
Definition d_flush : DM N := d_wait ow_poll_flush.
(** futures-lite [write_all] on the offset writer *)
Fixpoint d_write_all_loop (fuel : nat) (buf : bytes) : DM unit :=
  match fuel with
  | O => now (lift (Panic PFuel))
  | S f =>
    if len buf =? 0 then now (ret tt)
    else n <~ d_write buf ;;
         if n =? 0 then now (fail (UpstreamReadError WriteZero)) else d_write_all_loop f (drop n buf)
  end.
Definition d_write_all (buf : bytes) : DM unit := d_write_all_loop (S (length buf)) buf.

(** entry_whole.rs 149-240 [write], after [self.compress()] (which writes to memory and is never pending) *)
Definition d_whole_write_body (e : zentry) (data : bytes) : DM unit :=
  let e := set_compressed_size e (len data) in
  '(e, builder) <~ now (enforce_zip64_sizes e) ;;
  w <~ now get ;;
  '(lh_offset, builder) <~ now (enforce_zip64_offset (w_offset w) builder) ;;
  '(e, builder) <~ now (
    match builder with
    | Some b =>
      if negb (zfb_eof_only b)
      then z <- lift (zfb_build b) ;; ret (set_extra e (en_extra e ++ [XZip64 z]), None)
      else ret (e, Some b)
    | None => ret (e, None)
    end) ;;
  let flag := utf8_flag e in
  let e := add_unicode_fields e in
  let filename_basic := basic_bytes (en_filename e) in
  let comment_basic := basic_bytes (en_comment e) in
  xlen <~ now (lift (try_u16 (fields_count_bytes (en_extra e)) ExtraFieldTooLarge)) ;;
  nlen <~ now (lift (try_u16 (len filename_basic) FileNameTooLarge)) ;;
  let lf_header :=
    {| l_version := as_needed_to_extract e;
       l_flags := {| gp_encrypted := false; gp_data_descriptor := false; gp_filename_unicode := flag |};
       l_compression := compression_to (en_compression e);
       l_mod_time := zd_time (en_date e); l_mod_date := zd_date (en_date e); l_crc := en_crc32 e;
       l_compressed_size := as_u32 (en_compressed_size e);
       l_uncompressed_size := as_u32 (en_uncompressed_size e);
       l_file_name_length := nlen; l_extra_field_length := xlen |} in
  clen <~ now (lift (try_u16 (len comment_basic) CommentTooLarge)) ;;
  let header xlen :=
    {| c_v_made_by := as_made_by; c_v_needed := l_version lf_header; c_flags := l_flags lf_header;
       c_compression := l_compression lf_header; c_mod_time := l_mod_time lf_header;
       c_mod_date := l_mod_date lf_header; c_crc := l_crc lf_header;
       c_compressed_size := l_compressed_size lf_header;
       c_uncompressed_size := l_uncompressed_size lf_header;
       c_file_name_length := l_file_name_length lf_header; c_extra_field_length := xlen;
       c_file_comment_length := clen; c_disk_start := 0; c_inter_attr := en_iattr e;
       c_exter_attr := en_eattr e; c_lh_offset := as_u32 lh_offset |} in
  d_write_all (to_le 4 LFH_SIGNATURE) ~;;
  d_write_all (lfh_as_slice lf_header) ~;;
  d_write_all filename_basic ~;;
  xb <~ now (lift (fields_as_bytes (en_extra e))) ;;
  d_write_all xb ~;;
  d_write_all data ~;;
  '(e, xlen) <~ now (
    match builder with
    | Some b =>
      z <- lift (zfb_build b) ;;
      let e := set_extra e (en_extra e ++ [XZip64 z]) in
      xlen <- lift (try_u16 (fields_count_bytes (en_extra e)) ExtraFieldTooLarge) ;;
      ret (e, xlen)
    | None => ret (e, xlen)
    end) ;;
  w <~ now get ;;
  now (push_and_check (w_force_no w) {| ce_header := header xlen; ce_entry := e |}).
(** base/write/mod.rs 136-146; entry_whole.rs 149-155 and 45-62 *)
Definition d_write_entry_whole (cd : codec) (e : zentry) (data : bytes) : DM unit :=
  let e := set_crc32 (set_uncompressed_size e (len data)) (crc32 data) in
  match en_compression e with
  | Stored => d_whole_write_body e data
  | c => z <~ now (lift (compress cd c (en_level e) data)) ;; d_whole_write_body e z
  end.

(** entry_stream.rs 107-190 [write_lfh] *)
Definition d_write_lfh (e : zentry) : DM (zentry * lfh) :=
  w <~ now get ;;
  '(e, csz, usz) <~ now
    (if negb (w_force_no w) then
       modify (fun w => set_zip64 w true) ;;;
       ret (set_extra e (en_extra e ++
              [XZip64 {| zf_uncompressed := Some (en_uncompressed_size e);
                         zf_compressed := Some (en_compressed_size e);
                         zf_offset := None; zf_disk := None |}]),
            NON_ZIP64_MAX_SIZE, NON_ZIP64_MAX_SIZE)
     else if (NON_ZIP64_MAX_SIZE <? en_compressed_size e) || (NON_ZIP64_MAX_SIZE <? en_uncompressed_size e)
     then fail (Zip64Needed LargeFile)
     else ret (e, as_u32 (en_compressed_size e), as_u32 (en_uncompressed_size e))) ;;
  let flag := utf8_flag e in
  let e := add_unicode_fields e in
  let filename_basic := basic_bytes (en_filename e) in
  xlen <~ now (lift (try_u16 (fields_count_bytes (en_extra e)) ExtraFieldTooLarge)) ;;
  nlen <~ now (lift (try_u16 (len filename_basic) FileNameTooLarge)) ;;
  let h :=
    {| l_version := as_needed_to_extract e;
       l_flags := {| gp_encrypted := false; gp_data_descriptor := true; gp_filename_unicode := flag |};
       l_compression := compression_to (en_compression e);
       l_mod_time := zd_time (en_date e); l_mod_date := zd_date (en_date e); l_crc := en_crc32 e;
       l_compressed_size := csz; l_uncompressed_size := usz;
       l_file_name_length := nlen; l_extra_field_length := xlen |} in
  d_write_all (to_le 4 LFH_SIGNATURE) ~;;
  d_write_all (lfh_as_slice h) ~;;
  d_write_all filename_basic ~;;
  xb <~ now (lift (fields_as_bytes (en_extra e))) ;;
  d_write_all xb ~;;
  now (ret (e, h)).
(** entry_stream.rs 51-105; compressed_writer.rs 30-52 *)
Definition d_stream_open (cd : codec) (pre : bool) (e : zentry) : DM (stream_writer cd) :=
  w0 <~ now get ;;
  let lfh_offset := w_offset w0 in
  '(e, h) <~ d_write_lfh e ;;
  w <~ now get ;;
  enc <~ now (lift (if pre then Ok None
               else match en_compression e with
                    | Stored => Ok None
                    | Deflate64 => Panic PUnsupported
                    | c => Ok (Some (enc_init cd c LDefault))
                    end)) ;;
  now (ret {| sw_entry := e; sw_lfh := h; sw_lfh_offset := lfh_offset; sw_data_offset := w_offset w;
         sw_hasher := hasher_new; sw_force_no := w_force_no w; sw_pre := pre; sw_uoffset := 0;
         sw_enc := enc |}).
(** entry_stream.rs 289-297, awaited *)
Definition d_stream_write {cd} (sw : stream_writer cd) (buf : bytes) : DM (N * stream_writer cd) :=
  match sw_enc sw with
  | None =>
    n <~ d_write buf ;;
    now (ret (n, sw_advance sw (hasher_update (sw_hasher sw) (take n buf)) (sw_uoffset sw + n) None))
  | Some st =>
    let '(n, out, st') := enc_write cd st buf in
    d_write_all out ~;;
    now (ret (n, sw_advance sw (hasher_update (sw_hasher sw) (take n buf)) (sw_uoffset sw + n) (Some st')))
  end.
(** futures-lite [write_all] on the stream writer *)
Fixpoint d_stream_write_all_loop {cd} (fuel : nat) (sw : stream_writer cd) (buf : bytes) : DM (stream_writer cd) :=
  match fuel with
  | O => now (lift (Panic PFuel))
  | S f =>
    if len buf =? 0 then now (ret sw)
    else '(n, sw') <~ d_stream_write sw buf ;;
         if n =? 0 then now (fail (UpstreamReadError WriteZero))
         else d_stream_write_all_loop f sw' (drop n buf)
  end.
Definition d_stream_write_all {cd} (sw : stream_writer cd) (buf : bytes) : DM (stream_writer cd) :=
  d_stream_write_all_loop (S (length buf)) sw buf.
(** entry_stream.rs 299-301, awaited *)
Definition d_stream_flush {cd} (sw : stream_writer cd) : DM (stream_writer cd) :=
  match sw_enc sw with
  | None => d_flush ~;; now (ret sw)
  | Some st =>
    let '(out, st') := enc_flush cd st in
    d_write_all out ~;; d_flush ~;; now (ret (sw_advance sw (sw_hasher sw) (sw_uoffset sw) (Some st')))
  end.
(** compressed_writer.rs 104-118 [poll_close], awaited *)
Definition d_compressed_close {cd} (sw : stream_writer cd) : DM unit :=
  match sw_enc sw with
  | None => now shutdown_ignored_close
  | Some st => d_write_all (enc_finish cd st) ~;; now shutdown_ignored_close
  end.
(** entry_stream.rs 201-285 [close] *)
Definition d_stream_close {cd} (sw : stream_writer cd) : DM unit :=
  d_compressed_close sw ~;;
  let e := if sw_pre sw then sw_entry sw
           else set_uncompressed_size (set_crc32 (sw_entry sw) (hasher_finalize (sw_hasher sw))) (sw_uoffset sw) in
  w <~ now get ;;
  let compressed_size := w_offset w - sw_data_offset sw in
  '(cdr_compressed_size, cdr_uncompressed_size, lh_offset, e, xlen) <~ now
    (if sw_force_no sw then
       if (NON_ZIP64_MAX_SIZE <? en_uncompressed_size e) || (NON_ZIP64_MAX_SIZE <? compressed_size)
          || (NON_ZIP64_MAX_SIZE <? sw_lfh_offset sw)
       then fail (Zip64Needed LargeFile)
       else ret (as_u32 (en_uncompressed_size e), as_u32 compressed_size, as_u32 (sw_lfh_offset sw), e,
                 l_extra_field_length (sw_lfh sw))
     else
       let e := set_extra e (put_zip64 (en_uncompressed_size e) compressed_size (sw_lfh_offset sw) (en_extra e)) in
       xlen <- lift (try_u16 (fields_count_bytes (en_extra e)) ExtraFieldTooLarge) ;;
       ret (NON_ZIP64_MAX_SIZE, NON_ZIP64_MAX_SIZE, NON_ZIP64_MAX_SIZE, e, xlen)) ;;
  d_write_all (to_le 4 DATA_DESCRIPTOR_SIGNATURE) ~;;
  d_write_all (to_le 4 (en_crc32 e)) ~;;
  d_write_all (to_le 4 cdr_compressed_size) ~;;
  d_write_all (to_le 4 cdr_uncompressed_size) ~;;
  let comment_basic := basic_bytes (en_comment e) in
  clen <~ now (lift (try_u16 (len comment_basic) CommentTooLarge)) ;;
  let h := sw_lfh sw in
  let cdh :=
    {| c_v_made_by := as_made_by; c_v_needed := l_version h; c_flags := l_flags h;
       c_compression := l_compression h; c_mod_time := l_mod_time h; c_mod_date := l_mod_date h;
       c_crc := en_crc32 e; c_compressed_size := cdr_compressed_size;
       c_uncompressed_size := cdr_uncompressed_size; c_file_name_length := l_file_name_length h;
       c_extra_field_length := xlen; c_file_comment_length := clen; c_disk_start := 0;
       c_inter_attr := en_iattr e; c_exter_attr := en_eattr e; c_lh_offset := lh_offset |} in
  now (push_and_check (sw_force_no sw) {| ce_header := cdh; ce_entry := e |}).

(** base/write/mod.rs 189-271 [close] *)
Definition d_write_cd_entry (c : cd_entry) : DM unit :=
  let e := ce_entry c in
  d_write_all (to_le 4 CDH_SIGNATURE) ~;;
  d_write_all (cdr_as_slice (ce_header c)) ~;;
  d_write_all (basic_bytes (en_filename e)) ~;;
  xb <~ now (lift (fields_as_bytes (en_extra e))) ;;
  d_write_all xb ~;;
  d_write_all (basic_bytes (en_comment e)).
Fixpoint d_write_cd_entries (l : list cd_entry) : DM unit :=
  match l with
  | [] => now (ret tt)
  | c :: r => d_write_cd_entry c ~;; d_write_cd_entries r
  end.
Definition d_close : DM unit :=
  w <~ now get ;;
  let cd_offset := w_offset w in
  d_write_cd_entries (w_cds w) ~;;
  w <~ now get ;;
  let cd_size := w_offset w - cd_offset in
  let cd_size_u32 := if NON_ZIP64_MAX_SIZE <? cd_size then NON_ZIP64_MAX_SIZE else as_u32 cd_size in
  let num := len (w_cds w) in
  let num_u16 := if NON_ZIP64_MAX_NUM_FILES <? num then NON_ZIP64_MAX_NUM_FILES else as_u16 num in
  cd_offset_u32 <~ now
    (if NON_ZIP64_MAX_SIZE <? cd_offset then
       if w_force_no w then fail (Zip64Needed LargeFile)
       else modify (fun w => set_zip64 w true) ;;; ret NON_ZIP64_MAX_SIZE
     else ret (as_u32 cd_offset)) ;;
  w <~ now get ;;
  (if w_zip64 w then
     let eocdr_offset := w_offset w in
     d_write_all (to_le 4 ZIP64_EOCDR_SIGNATURE) ~;;
     d_write_all (z64_eocdr_as_bytes
       {| z_size := 44; z_version_made_by := as_made_by; z_version_needed := 46; z_disk_number := 0;
          z_disk_number_start_of_cd := 0; z_num_entries_on_disk := num; z_num_entries := num;
          z_directory_size := cd_size; z_offset := cd_offset |}) ~;;
     d_write_all (to_le 4 ZIP64_EOCDL_SIGNATURE) ~;;
     d_write_all (z64_eocdl_as_bytes {| zl_disk := 0; zl_relative_offset := eocdr_offset; zl_total_disks := 1 |})
   else now (ret tt)) ~;;
  d_write_all (to_le 4 EOCDR_SIGNATURE) ~;;
  d_write_all (eocdr_as_slice
    {| e_disk_num := 0; e_start_cent_dir_disk := 0; e_num_of_entries_disk := num_u16;
       e_num_of_entries := num_u16; e_size_cent_dir := cd_size_u32; e_cent_dir_offset := cd_offset_u32;
       e_file_comm_length := match w_comment w with Some c => as_u16 (len c) | None => 0 end |}) ~;;
  match w_comment w with Some c => d_write_all c | None => now (ret tt) end.

(** ** Histories *)
Fixpoint d_stream_body {cd} (sw : stream_writer cd) (l : list stream_op) : DM (stream_writer cd) :=
  match l with
  | [] => now (ret sw)
  | SWriteAll b :: r => sw <~ d_stream_write_all sw b ;; d_stream_body sw r
  | SFlush :: r => sw <~ d_stream_flush sw ;; d_stream_body sw r
  end.
(** An entry stream that was left while pending is dropped with its writer. *)
Definition d_run_op (cd : codec) (o : wop) : DM unit :=
  match o with
  | OpForceNoZip64 => now (modify (fun w => set_force_no w true))
  | OpForceZip64 => now (modify (fun w => set_zip64 w true))
  | OpComment c => now (modify (fun w => set_wcomment w (Some c)))
  | OpWhole e d => d_write_entry_whole cd e d
  | OpWholePre e d => d_whole_write_body e d
  | OpStream pre e body closed =>
    sw <~ d_stream_open cd pre e ;;
    sw <~ d_stream_body sw body ;;
    if closed then d_stream_close sw else now (ret tt)
  end.
(** each call with the patience of its caller, who carries on after errors and after having left *)
Fixpoint d_run_ops (cd : codec) (l : list (wop * nat)) (w : world) : list (wop * seen unit) * world :=
  match l with
  | [] => ([], w)
  | (o, n) :: r =>
    let '(x, _, w') := d_run_op cd o n w in
    let '(xs, w'') := d_run_ops cd r w' in
    ((o, x) :: xs, w'')
  end.
(** [close] with patience [n] at the end *)
Definition d_run_archive (cd : codec) (sched : list wevent) (l : list (wop * nat)) (n : nat)
  : list (wop * seen unit) * seen unit * world :=
  let '(xs, w) := d_run_ops cd l (zw_new sched) in
  let '(r, _, w') := d_close n w in
  (xs, r, w').
