(** Properties C22 (entries written as streams), C49, C50 and C51. *)
From Verif Require Import Base BaseFacts SpecFormat SpecCrc SpecArchive SpecRead SpecWrite ZString ZDate Headers ExtraField Entry IO IOFacts Reader
  EntryReader Writer FsReader Builders EntryProofs SpecOutcome SpecBuild Samples WriteSamples FarFiles ReadProofs StreamOutcome BuildProofs FsProofs BehindProofs
  Properties_Read Properties_Archive.

(** * C22. Entries written as streams: what is refused when the entry is opened, on any sink; nothing else is. *)
Theorem C22_opening cd pre e w : entry_fine e -> (pre = true \/ en_compression e <> Deflate64) ->
  exists it flag lx, i_stream it = true /\ i_no64 it = w_force_no w /\ i_entry it = e /\
    texts (en_filename e) (en_comment e) flag (en_extra e ++ local_zip64 it) lx /\
    match stream_open cd pre e w with
    | (Ok _, w') => opening_outcome w it lx None w'
    | (Err x, w') => opening_outcome w it lx (Some x) w'
    | (Panic _, _) => False
    end.
Proof. exact (stream_opened cd pre e w). Qed.
Print Assumptions C22_opening.
(** The whole call, on a healthy sink. *)
Theorem C22_stream_partial cd pre e body w : enc_takes cd -> entry_fine e -> (pre = true \/ en_compression e <> Deflate64) -> k_sched (w_sink w) = [] ->
  exists it version flag lx, leaves cd (w_force_no w) (OpStream pre e body true) it /\ i_off it = w_offset w /\
    texts (en_filename e) (en_comment e) flag (en_extra e ++ local_zip64 it) lx /\ needs e version /\
    stream_outcome w it lx (local_image it version flag lx)
      (fst (run_op cd (OpStream pre e body true) w)) (snd (run_op cd (OpStream pre e body true) w)).
Proof. exact (streamed cd pre e body w). Qed.
Print Assumptions C22_stream_partial.
Example C22_stream_case : enc_takes toy /\ entry_fine entry2 /\ en_compression entry2 <> Deflate64 /\
  let '(r, w) := run_op toy (OpStream false entry2 [SWriteAll [x07; x08]] true) (zw_new []) in r = Ok tt /\ len (w_bytes w) = 83 /\ len (w_cds w) = 1.
Proof.
  split; [exact toy_takes|]. split; [unfold entry_fine, entry_wt; cbn; repeat split; constructor|]. split; [discriminate|]. vm_compute. repeat split; reflexivity.
Qed.
(** A comment of 65536 bytes is refused when header, data and descriptor are already in the sink. *)
Theorem C22_refuted_stream : exists e, len (stored_bytes (en_comment e)) = 65536 /\ forall cd body, enc_takes cd ->
  let '(r, w) := run_op cd (OpStream false e body true) (zw_new []) in
  r = Err CommentTooLarge /\ w_cds w = [] /\ len (w_bytes w) = 67 + len (fed_bytes body).
Proof. exact wordy_refused. Qed.
Print Assumptions C22_refuted_stream.

(** * C49. A chain of builder calls. *)
Theorem C49_chain l e : Forall setter_wt l ->
  en_filename (built e l) = last_said says_filename l (en_filename e) /\
  en_compression (built e l) = last_said says_compression l (en_compression e) /\
  en_crc32 (built e l) = last_said says_crc32 l (en_crc32 e) /\
  en_compressed_size (built e l) = last_said says_compressed_size l (en_compressed_size e) /\
  en_uncompressed_size (built e l) = last_said says_uncompressed_size l (en_uncompressed_size e) /\
  en_level (built e l) = last_said says_level l (en_level e) /\
  en_date (built e l) = last_said says_date l (en_date e) /\
  en_iattr (built e l) = last_said says_internal l (en_iattr e) /\
  en_extra (built e l) = last_said says_extra l (en_extra e) /\
  en_comment (built e l) = last_said says_comment l (en_comment e) /\
  en_data_descriptor (built e l) = en_data_descriptor e /\
  en_eattr (built e l) / 65536 = last_said says_mode l (en_eattr e / 65536) /\
  en_eattr (built e l) mod 65536 = last_said says_low l (en_eattr e mod 65536).
Proof. exact (chain l e). Qed.
Print Assumptions C49_chain.
(** A chain starts with an entry that has a name and a method, and nothing else. *)
Theorem C49_new name c : entry_new name c = {| en_filename := name; en_compression := c; en_level := LDefault; en_crc32 := 0; en_uncompressed_size := 0; en_compressed_size := 0;
  en_attr_compat := Unix; en_date := {| zd_date := 0; zd_time := 0 |}; en_iattr := 0; en_eattr := 0; en_extra := []; en_comment := {| zs_enc := EUtf8; zs_raw := []; zs_alt := None |};
  en_data_descriptor := false |}.
Proof. exact eq_refl. Qed.
Print Assumptions C49_new.
(** What a chain starts with fits the fields of the format, and so does what it ends with. *)
Theorem C49_fits l e : Forall setter_wt l -> entry_wt e -> entry_wt (built e l).
Proof. exact (chain_wt l e). Qed.
Print Assumptions C49_fits.
(** ZipFileBuilder: nothing to begin with, and [comment] replaces the comment only. *)
Theorem C49_file f c : (f_entries file_builder = [] /\ f_zip64 file_builder = false /\ zs_as_str (f_comment file_builder) = Ok []) /\
  f_entries (file_builder_comment f c) = f_entries f /\ f_zip64 (file_builder_comment f c) = f_zip64 f /\ f_comment (file_builder_comment f c) = c.
Proof. repeat split. Qed.
Print Assumptions C49_file.
Example C49_case : let l := [SetUnixPermissions 420; SetCrc32 7; SetExternalFileAttribute 0x10020; SetUnixPermissions 493; SetCrc32 8] in
  Forall setter_wt l /\ entry_wt entry1 /\ en_eattr (built entry1 l) = 493 * 65536 + 0x20 /\ en_crc32 (built entry1 l) = 8 /\
  en_filename (built entry1 l) = en_filename entry1.
Proof. cbv zeta. split; [repeat constructor|]. split; [unfold entry_wt; cbn; repeat split|]. vm_compute. repeat split; reflexivity. Qed.

(** * C50. Writing behind what the sink already has. *)
Theorem C50_behind cd p sched l :
  let '(xs, r, w) := run_archive cd sched l in
  let '(xs', r', w') := run_archive_behind cd p sched l in
  xs' = xs /\ r' = r /\ w_bytes w' = p ++ w_bytes w /\ w_offset w' = w_offset w.
Proof. exact (written_behind cd p sched l). Qed.
Print Assumptions C50_behind.
Example C50_case : let '(xs, r, w) := run_archive_behind toy [x23; x21] bumpy history in
  r = Ok tt /\ len (w_bytes w) = 543 /\ w_offset w = 541 /\ len (recorded false xs) = 3.
Proof. vm_compute. repeat split; reflexivity. Qed.
(** The offsets count from where the archive starts, and the readers count from where the source starts: the two
    together are not read back. *)
Theorem C50_refuted : exists p l, Forall op_good l /\
  let '(xs, r, w) := run_archive toy [] l in
  let '(xs', r', w') := run_archive_behind toy p [] l in
  r = Ok tt /\ r' = Ok tt /\
  (exists f, mem_new cfg0 (w_bytes w) = Ok {| m_data := w_bytes w; m_file := f |} /\ len (f_entries f) = 3) /\
  exists x, mem_new cfg0 (w_bytes w') = Err x.
Proof.
  exists [x23; x21], history. split; [exact history_good|].
  assert (H : let '(xs, r, w) := run_archive toy [] history in
    let '(xs', r', w') := run_archive_behind toy [x23; x21] [] history in
    r = Ok tt /\ r' = Ok tt /\ opened (w_bytes w) (fun f => len (f_entries f)) = Some 3 /\
    match mem_new cfg0 (w_bytes w') with Err _ => true | _ => false end = true).
  { vm_compute. repeat split; reflexivity. }
  destruct (run_archive toy [] history) as [[xs r] w]. destruct (run_archive_behind toy [x23; x21] [] history) as [[xs' r'] w'].
  destruct H as (H1 & H2 & H3 & H4). apply opened_ok in H3 as (f & F & H3).
  split; [exact H1|]. split; [exact H2|]. split; [exists f; exact (conj F H3)|].
  destruct (mem_new cfg0 (w_bytes w')) as [m|x|y]; [discriminate H4|exists x; reflexivity|discriminate H4].
Qed.
Print Assumptions C50_refuted.

(** * C51. The reader over a path. [fs] says what opening a path gives. *)
Theorem C51_new cfg fs p d q : fs p = Opens d q ->
  (forall c, In (RFail c) q -> fs_new cfg fs p <> Err (UpstreamReadError (IoOther c))) ->
  match mem_new cfg d with
  | Ok m => fs_new cfg fs p = Ok {| x_path := p; x_file := m_file m |}
  | Err x => fs_new cfg fs p = Err x
  | Panic y => fs_new cfg fs p = Panic y
  end.
Proof. exact (fs_new_mem cfg fs p d q). Qed.
Print Assumptions C51_new.
(** [fs'] is the file system when the entry is read, which may be another one. *)
Theorem C51_read cd fs' x i d q : fs' (x_path x) = Opens d q ->
  fs_read_entry cd fs' x i = mem_read_entry cd {| m_data := d; m_file := x_file x |} i \/
  exists c, In (RFail c) q /\ fs_read_entry cd fs' x i = Err (UpstreamReadError (IoOther c)).
Proof. exact (fs_read_mem cd fs' x i d q). Qed.
Print Assumptions C51_read.
Theorem C51_gone cd cfg fs x i e : fs (x_path x) = OpenFails e ->
  fs_new cfg fs (x_path x) = Err (UpstreamReadError e) /\
  (i < len (f_entries (x_file x)) -> fs_read_entry cd fs x i = Err (UpstreamReadError e)).
Proof. exact (fs_gone cd cfg fs x i e). Qed.
Print Assumptions C51_gone.
Theorem C51_index cd fs x i : len (f_entries (x_file x)) <= i <-> fs_read_entry cd fs x i = Err EntryIndexOutOfBounds.
Proof. exact (fs_index cd fs x i). Qed.
Print Assumptions C51_index.
(** Any number of entry readers may be in use at once. *)
Theorem C51_interleaved cd fs x ops rs k i r e d q : nth_error rs k = Some r -> fs (x_path x) = Opens d q -> fs_reader_at fs x i = Ok (r, e) ->
  let '(xs, rs') := interleave cd ops rs in
  prefix (delivered (own_results k xs)) (fst (decoded cd (en_compression (st_entry e)) (region d e))) /\
  exists r', nth_error rs' k = Some r' /\ forall n, 0 < n -> fst (er_read cd n r') = Ok [] ->
      decoded cd (en_compression (st_entry e)) (region d e) = (delivered (own_results k xs), true).
Proof. exact (fs_interleaved cd fs x ops rs k i r e d q). Qed.
Print Assumptions C51_interleaved.
(** What was written is read back through the path. *)
Theorem C51_written_partial cd cfg sched l fs p q : codec_ok cd -> Forall op_good l ->
  let '(xs, r, w) := run_archive cd sched l in
  r = Ok tt -> unambiguous cd cfg l xs (w_zip64 w) (w_bytes w) -> fs p = Opens (w_bytes w) q -> nofail q ->
  exists f, fs_new cfg fs p = Ok {| x_path := p; x_file := f |} /\
    Forall2 (fun x st => exists it, leaves cd (fst x) (snd x) it /\ as_written (w_bytes w) it st /\ texts_kept it st) (succeeded false xs) (f_entries f) /\
    forall i no64 o data, nth_error (succeeded false xs) (N.to_nat i) = Some (no64, o) -> holds cd o data ->
       (forall it, leaves cd no64 o it -> straight it) -> fs_read_entry cd fs {| x_path := p; x_file := f |} i = Ok data.
Proof.
  intros K G. pose proof (C01_round_trip_partial cd cfg sched {| s_data := w_bytes (snd (run_archive cd sched l)); s_pos := 0; s_sched := q |} l K G) as H.
  destruct (run_archive cd sched l) as [[xs r] w]. cbn [snd s_data s_sched] in H. intros R U O N.
  destruct (H R U eq_refl N) as (f & F1 & F2 & _ & _ & F3 & F4). exists f.
  pose proof (fs_new_is cfg fs p) as E. rewrite O in E. unfold fresh in E. rewrite F1 in E. split; [exact E|]. split; [exact F3|].
  intros i no64 o data E1 E2 E3. destruct (F4 i no64 o data E1 E2 E3) as [_ F5].
  exact (eq_trans (fs_read_calm cd fs {| x_path := p; x_file := f |} i (w_bytes w) q O N) F5).
Qed.
Print Assumptions C51_written_partial.

(** the file system of the example has one file; it is replaced by one in which "hi!" became "ho!" *)
Definition place : path := [x61].
Definition disk (d : bytes) (q : list revent) : filesystem := fun p => if bytes_eqb p place then Opens d q else OpenFails (IoOther 2).
Definition fickle : list revent := [RPending; RChunk 3; RPending; RChunk 1].
Definition replaced : bytes := local1 ++ [x68; x6f; x21] ++ drop (len (local1 ++ data1)) sample.
Definition looked {A} (d : bytes) (q : list revent) (g : fs_reader -> A) : option A := match fs_new cfg0 (disk d q) place with Ok x => Some (g x) | _ => None end.
Lemma looked_ok {A} d q (g : fs_reader -> A) a : looked d q g = Some a -> exists x, fs_new cfg0 (disk d q) place = Ok x /\ g x = a.
Proof. unfold looked. destruct (fs_new cfg0 (disk d q) place) as [x|e|p]; try discriminate. intro H. injection H as <-. now exists x. Qed.
Example C51_case : exists x, fs_new cfg0 (disk sample fickle) place = Ok x /\ len (f_entries (x_file x)) = 2 /\
  fs_read_entry toy (disk sample fickle) x 0 = Ok data1 /\ fs_read_entry toy (disk sample fickle) x 1 = Ok [x78; x79] /\
  fs_read_entry toy (disk sample fickle) x 2 = Err EntryIndexOutOfBounds /\
  fs_read_entry toy (fun _ => OpenFails (IoOther 2)) x 1 = Err (UpstreamReadError (IoOther 2)).
Proof.
  destruct (looked_ok sample fickle (fun x => (len (f_entries (x_file x)), fs_read_entry toy (disk sample fickle) x 0,
    fs_read_entry toy (disk sample fickle) x 1, fs_read_entry toy (disk sample fickle) x 2, fs_read_entry toy (fun _ => OpenFails (IoOther 2)) x 1))
    (2, Ok data1, Ok [x78; x79], Err EntryIndexOutOfBounds, Err (UpstreamReadError (IoOther 2)))) as (x & X & E); [vm_compute; reflexivity|].
  injection E as E1 E2 E3 E4 E5. exists x. exact (conj X (conj E1 (conj E2 (conj E3 (conj E4 E5))))).
Qed.
(** Nothing ties the two openings together: after the replacement the reader gives the new bytes under the old entry. A
    caller that checks is told, one that does not is not. *)
Theorem C51_refuted : exists fs fs' x, fs_new cfg0 fs place = Ok x /\ fs_read_entry toy fs x 0 = Ok data1 /\
  (exists r e, fs_reader_at fs' x 0 = Ok (r, e) /\ fst (er_read_to_end toy r) = Ok [x68; x6f; x21]) /\
  fs_read_entry toy fs' x 0 = Err CRC32CheckError.
Proof.
  destruct (looked_ok sample [] (fun x => (fs_read_entry toy (disk sample []) x 0,
    match fs_reader_at (disk replaced []) x 0 with Ok (r, _) => fst (er_read_to_end toy r) | Err e => Err e | Panic p => Panic p end,
    fs_read_entry toy (disk replaced []) x 0)) (Ok data1, Ok [x68; x6f; x21], Err CRC32CheckError)) as (x & X & E); [vm_compute; reflexivity|].
  injection E as E1 E2 E3. exists (disk sample []), (disk replaced []), x. split; [exact X|]. split; [exact E1|]. split; [|exact E3].
  destruct (fs_reader_at (disk replaced []) x 0) as [[r e]|e|p]; [|discriminate E2|discriminate E2]. exists r, e. exact (conj eq_refl E2).
Qed.
Print Assumptions C51_refuted.
