(** Seekable sources whose seeks may be pending, fail or refuse a position, and callers that give up. The model of IO.v has every seek done
    at once. Here a seek is polled like a read, and a caller has patience for some number of pending polls of a call and drops its future at
    the next one. Nothing in base/read/ polls two things at once or implements Drop, so a dropped call just stops where it is. *)
From Verif Require Import Base ZString ZDate Headers ExtraField Entry IO Locator Reader EntryReader ReaderPolls GiveUp.

(** One outcome of polling a seek. A seek that is pending or fails may have left the source at any position. *)
Inductive kevent := KPending (p : N) | KDone | KFail (code p : N).
(** [h_max]: the largest position the source takes (2^63 - 1 for a file, 2^64 - 1 for a cursor). After the scheduled outcomes are used up
    every seek is done at once. *)
Record harsh := { h_src : source; h_seeks : list kevent; h_max : N }.
Definition with_src (h : harsh) (s : source) : harsh := {| h_src := s; h_seeks := h_seeks h; h_max := h_max h |}.

Inductive kpoll := KPend | KAt (p : N) | KErr (e : io_error).
(** [AsyncSeek::poll_seek] to the position [p]: past [h_max], or past what 64 bits hold, it is refused *)
Definition poll_seek (p : N) (h : harsh) : kpoll * harsh :=
  let at_ q l := {| h_src := set_pos (h_src h) q; h_seeks := l; h_max := h_max h |} in
  let try_ l := if (p <=? u64_max) && (p <=? h_max h) then (KAt p, at_ p l) else (KErr InvalidInput, at_ (s_pos (h_src h)) l) in
  match h_seeks h with
  | [] => try_ []
  | KPending q :: l => (KPend, at_ q l)
  | KDone :: l => try_ l
  | KFail c q :: l => (KErr (IoOther c), at_ q l)
  end.

Definition HM (A : Type) : Type := nat -> harsh -> seen A * nat * harsh.
Definition hbind {A B} (m : HM A) (f : A -> HM B) : HM B :=
  fun n h => match m n h with
             | (Finished (Ok a), n', h') => f a n' h'
             | (Finished (Err e), n', h') => (Finished (Err e), n', h')
             | (Finished (Panic p), n', h') => (Finished (Panic p), n', h')
             | (Left, n', h') => (Left, n', h')
             end.
Definition hret {A} (a : A) : HM A := fun n h => (Finished (Ok a), n, h).
Definition hlift {A} (r : res A) : HM A := fun n h => (Finished r, n, h).
Definition hfail {A} (e : zip_error) : HM A := hlift (Err e).
Notation "x <- m ;: k" := (hbind m (fun x => k)) (at level 61, m at next level, right associativity).
Notation "' p <- m ;: k" := (hbind m (fun x => match x with p => k end)) (at level 61, p pattern, m at next level, right associativity).
Notation "m :;: k" := (hbind m (fun _ => k)) (at level 61, right associativity).

(** ** Awaiting *)
Fixpoint h_seek_poll (fuel : nat) (p : N) : HM N :=
  match fuel with
  | O => hlift (Panic PFuel)
  | S f => fun n h =>
    match poll_seek p h with
    | (KPend, h') => match n with O => (Left, O, h') | S n => h_seek_poll f p n h' end
    | (KAt q, h') => (Finished (Ok q), n, h')
    | (KErr e, h') => (Finished (Err (UpstreamReadError e)), n, h')
    end
  end.
Definition h_seek_start (p : N) : HM N := fun n h => h_seek_poll (S (length (h_seeks h))) p n h.
Definition h_seek_end : HM N := fun n h => h_seek_start (len (s_data (h_src h))) n h.
(** where a relative seek leads is settled when it is first polled *)
Definition h_seek_current (d : N) : HM N := fun n h => h_seek_start (s_pos (h_src h) + d) n h.

Fixpoint h_read_poll (fuel : nat) (k : N) : HM bytes :=
  match fuel with
  | O => hlift (Panic PFuel)
  | S f => fun n h =>
    match poll_read k (h_src h) with
    | (RPend, s) => match n with O => (Left, O, with_src h s) | S n => h_read_poll f k n (with_src h s) end
    | (RGot b, s) => (Finished (Ok b), n, with_src h s)
    | (RErr e, s) => (Finished (Err (UpstreamReadError e)), n, with_src h s)
    end
  end.
Definition h_read (k : N) : HM bytes := fun n h => h_read_poll (S (length (s_sched (h_src h)))) k n h.
Fixpoint h_read_exact_loop (fuel : nat) (k : N) : HM bytes :=
  match fuel with
  | O => hlift (Panic PFuel)
  | S f =>
    if k =? 0 then hret []
    else b <- h_read k ;:
         if len b =? 0 then hfail (UpstreamReadError UnexpectedEof)
         else r <- h_read_exact_loop f (k - len b) ;: hret (b ++ r)
  end.
Definition h_read_exact (k : N) : HM bytes := fun n h => h_read_exact_loop (S (S (length (s_sched (h_src h))))) k n h.
Fixpoint h_read_to_end_loop (fuel : nat) (limit : N) : HM bytes :=
  match fuel with
  | O => hlift (Panic PFuel)
  | S f =>
    if limit =? 0 then hret []
    else b <- h_read limit ;:
         if len b =? 0 then hret []
         else r <- h_read_to_end_loop f (limit - len b) ;: hret (b ++ r)
  end.
Definition h_read_bytes (limit : N) : HM bytes := fun n h => h_read_to_end_loop (S (S (length (s_sched (h_src h))))) limit n h.

(** ** base/read/io/locator.rs *)
(** locator.rs 59-67 *)
Definition h_fill : HM bytes := h_read_bytes BUFFER_SIZE.
(** locator.rs 57-83 *)
Fixpoint h_eocdr_loop (fuel : nat) (length position : N) : HM N :=
  match fuel with
  | O => hlift (Panic PFuel)
  | S f =>
    buffer <- h_fill ;:
    match reverse_search_buffer buffer (to_le 4 EOCDR_SIGNATURE) with
    | Some match_index => hret (position + (match_index + 1))
    | None =>
      if (position =? 0) || (position <=? length - EOCDR_LOWER_BOUND)
      then hfail UnableToLocateEOCDR
      else
        let position' := position - (BUFFER_SIZE - SIGNATURE_LENGTH) in
        h_seek_start position' :;: h_eocdr_loop f length position'
    end
  end.
(** locator.rs 46-84 *)
Definition h_eocdr_locate : HM N :=
  length <- h_seek_end ;:
  let position := length - BUFFER_SIZE in
  h_seek_start position :;:
  h_eocdr_loop 64 length position.

(** ** base/read/mod.rs *)
(** utils.rs 8-18 *)
Definition h_assert_signature (expected : N) : HM unit :=
  b <- h_read_exact 4 ;:
  let actual := from_le b in
  if actual =? expected then hret tt else hfail (UnexpectedHeaderError actual expected).
(** spec/parse.rs 186-215, 238-252 *)
Definition h_lfh_from_reader : HM lfh := b <- h_read_exact 26 ;: hret (lfh_from b).
Definition h_eocdr_from_reader : HM eocdr := b <- h_read_exact 18 ;: hret (eocdr_from b).
Definition h_cdr_from_reader : HM cdr := b <- h_read_exact 42 ;: hret (cdr_from b).
Definition h_z64_eocdr_from_reader : HM z64_eocdr := b <- h_read_exact 52 ;: hret (z64_eocdr_from b).
Definition h_z64_eocdl_try_from_reader : HM (option z64_eocdl) :=
  b <- h_read_exact 4 ;:
  if negb (from_le b =? ZIP64_EOCDL_SIGNATURE) then hret None
  else b <- h_read_exact 16 ;: hret (Some (z64_eocdl_from b)).
(** io/mod.rs 17-22 *)
Definition h_read_string (length : N) (e : encoding) : HM zstring := b <- h_read_bytes length ;: hret (zs_new b e).

(** mod.rs 139-196 *)
Definition h_cd_record (cfg : config) : HM stored_entry :=
  h_assert_signature CDH_SIGNATURE :;:
  header <- h_cdr_from_reader ;:
  let header_size := SIGNATURE_LENGTH + LFH_LENGTH in
  let trailing_size := c_file_name_length header + c_extra_field_length header in
  filename_basic <- h_read_bytes (c_file_name_length header) ;:
  compression <- hlift (compression_try_from (c_compression header)) ;:
  extra_field <- h_read_bytes (c_extra_field_length header) ;:
  extra_fields <- hlift (parse_extra_fields cfg extra_field (c_uncompressed_size header) (c_compressed_size header)) ;:
  comment_basic <- h_read_bytes (c_file_comment_length header) ;:
  let z := get_zip64_extra_field extra_fields in
  let '(uncompressed_size, compressed_size) :=
    get_combined_sizes (c_uncompressed_size header) (c_compressed_size header) z in
  let file_offset :=
    match z with
    | Some z => if c_lh_offset header =? NON_ZIP64_MAX_SIZE
                then match zf_offset z with Some o => o | None => c_lh_offset header end
                else c_lh_offset header
    | None => c_lh_offset header
    end in
  let filename := detect_filename filename_basic (gp_filename_unicode (c_flags header)) extra_fields in
  let comment := detect_comment comment_basic (gp_filename_unicode (c_flags header)) extra_fields in
  hret {| st_entry :=
           {| en_filename := filename; en_compression := compression; en_level := LDefault;
              en_crc32 := c_crc header; en_uncompressed_size := uncompressed_size;
              en_compressed_size := compressed_size; en_attr_compat := Unix;
              en_date := {| zd_date := c_mod_date header; zd_time := c_mod_time header |};
              en_iattr := c_inter_attr header; en_eattr := c_exter_attr header;
              en_extra := extra_fields; en_comment := comment;
              en_data_descriptor := gp_data_descriptor (c_flags header) |};
         st_file_offset := file_offset; st_header_size := header_size + trailing_size |}.
(** mod.rs 84-97 *)
Fixpoint h_cd_loop (cfg : config) (fuel : nat) (n : N) : HM (list stored_entry) :=
  match fuel with
  | O => hlift (Panic PFuel)
  | S f =>
    if n =? 0 then hret []
    else e <- h_cd_record cfg ;: r <- h_cd_loop cfg f (n - 1) ;: hret (e :: r)
  end.
Definition h_cd (cfg : config) (num_of_entries : N) : HM (list stored_entry) :=
  hlift (with_capacity cfg num_of_entries) :;:
  fun n h => h_cd_loop cfg (S (length (s_data (h_src h)))) num_of_entries n h.
(** mod.rs 39-82 *)
Definition h_file (cfg : config) : HM zfile :=
  eocdr_offset <- h_eocdr_locate ;:
  h_seek_start eocdr_offset :;:
  eocdr <- h_eocdr_from_reader ;:
  comment <- h_read_string (e_file_comm_length eocdr) EUtf8 ;:
  '(comb, zip64) <-
    (if eocdr_offset <? ZIP64_EOCDL_LENGTH + SIGNATURE_LENGTH
     then hret (combined_from eocdr, false)
     else
       h_seek_start (eocdr_offset - (ZIP64_EOCDL_LENGTH + SIGNATURE_LENGTH)) :;:
       zip64_locator <- h_z64_eocdl_try_from_reader ;:
       match zip64_locator with
       | Some locator =>
         p <- hlift (uadd cfg (zl_relative_offset locator) SIGNATURE_LENGTH) ;:
         h_seek_start p :;:
         zip64_eocdr <- h_z64_eocdr_from_reader ;:
         hret (combine eocdr zip64_eocdr, true)
       | None => hret (combined_from eocdr, false)
       end) ;:
  if negb (cb_disk_number comb =? cb_disk_number_start_of_cd comb)
     || negb (cb_num_entries comb =? cb_num_entries_on_disk comb)
  then hfail (FeatureNotSupported FSplit)
  else
    h_seek_start (cb_offset comb) :;:
    entries <- h_cd cfg (cb_num_entries comb) ;:
    hret {| f_entries := entries; f_zip64 := zip64; f_comment := comment |}.

(** ** entry/mod.rs 188-210, base/read/seek.rs 55-58, 85-126 *)
Definition h_seek_to_data_offset (e : stored_entry) : HM unit :=
  h_seek_start (st_file_offset e) :;:
  sig <- h_read_exact 4 ;:
  let signature := from_le sig in
  if negb (signature =? LFH_SIGNATURE) then hfail (UnexpectedHeaderError signature LFH_SIGNATURE)
  else
    header <- h_lfh_from_reader ;:
    h_seek_current (l_file_name_length header + l_extra_field_length header) :;:
    hret tt.
Definition h_reader_at (f : zfile) (index : N) : HM (ereader * stored_entry) :=
  match entry_at f index with
  | None => hfail EntryIndexOutOfBounds
  | Some e =>
    h_seek_to_data_offset e :;:
    fun n h => hret (er_new (h_src h) (en_compression (st_entry e)) (en_compressed_size (st_entry e)), e) n h
  end.

(** ** One reader over such a source: calls with some patience each, whose entry readers are polled in any way and dropped *)
Definition harsh_use (cd : codec) (f : zfile) (u : N * nat * list read_call) (h : harsh) : (seen stored_entry * list (read_call * rpoll)) * harsh :=
  let '(i, n, l) := u in
  match h_reader_at f i n h with
  | (Finished (Ok (r, e)), _, h') => let '(ps, r') := er_polls cd l r in ((Finished (Ok e), ps), with_src h' (er_src r'))
  | (Finished (Err x), _, h') => ((Finished (Err x), []), h')
  | (Finished (Panic p), _, h') => ((Finished (Panic p), []), h')
  | (Left, _, h') => ((Left, []), h')
  end.
Fixpoint harsh_uses (cd : codec) (f : zfile) (us : list (N * nat * list read_call)) (h : harsh) : list (seen stored_entry * list (read_call * rpoll)) * harsh :=
  match us with
  | [] => ([], h)
  | u :: us => let '(x, h) := harsh_use cd f u h in let '(xs, h) := harsh_uses cd f us h in (x :: xs, h)
  end.
(** a call that opens an entry and reads it to the end, checked, with a caller that puts up with [n] pending polls while opening *)
Definition h_read_entry (cd : codec) (f : zfile) (index : N) (n : nat) (h : harsh) : seen bytes :=
  match h_reader_at f index n h with
  | (Finished (Ok (r, e)), _, _) => Finished (fst (er_read_to_end_checked cd (st_entry e) r))
  | (Finished (Err x), _, _) => Finished (Err x)
  | (Finished (Panic p), _, _) => Finished (Panic p)
  | (Left, _, _) => Left
  end.
