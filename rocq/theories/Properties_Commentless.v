(** Property theorems: archives without a comment. *)
From Verif Require Import Base SpecFormat SpecCrc SpecArchive SpecRead SpecWrite SpecSize SpecStrict SpecOrdinary SpecSpells SpecDirectory ZString ZDate Headers ExtraField
  Entry IO Reader EntryReader Writer IOFacts Samples WriteSamples Properties_Archive CommentlessProofs.

(** * C91. An archive written without a comment opens. *)
(** What becomes of it is decided by three numbers: how many entries, how long the directory, where it starts. The length follows from the
    calls. *)
Theorem C91_exact_partial cd cfg sched s l : codec_ok cd -> Forall op_good l -> last_comment l = [] ->
  let '(xs, r, w) := run_archive cd sched l in
  let d := w_bytes w in
  r = Ok tt -> len d < 0x10000000000000000 -> s_data s = d -> nofail (s_sched s) ->
  exists body records, d = body ++ records ++ archive_end (w_zip64 w) (len (recorded false xs)) (len records) (len body) [] /\
    (Forall (tame d) (recorded false xs) -> len records = directory_size (recorded false xs)) /\
    (spelled_by (len (recorded false xs)) (len records) (len body) -> fst (file cfg s) = Err (UpstreamReadError UnexpectedEof)) /\
    (~ spelled_by (len (recorded false xs)) (len records) (len body) ->
     (w_zip64 w = false -> forall q, found_at (le 4 0x07064b50) d q -> q + 42 <> len d) ->
     (w_zip64 w = true -> Forall (fun x => too_many (snd x) = false) xs) -> sizes_tell cd d (succeeded false xs) ->
     len (succeeded false xs) * entry_mem_size cfg <= 0x7FFFFFFFFFFFFFFF ->
     exists f, fst (file cfg s) = Ok f /\ f_zip64 f = w_zip64 w /\ zs_raw (f_comment f) = [] /\
       Forall2 (fun x st => exists it, leaves cd (fst x) (snd x) it /\ as_written d it st /\ texts_kept it st) (succeeded false xs) (f_entries f) /\
       (forall i no64 o data, nth_error (succeeded false xs) (N.to_nat i) = Some (no64, o) -> holds cd o data ->
          (forall it, leaves cd no64 o it -> straight it) -> read_entry cd f i s = Ok data)).
Proof. exact (commentless cd cfg sched s l). Qed.
Print Assumptions C91_exact_partial.
(** Seven coincidences, and no others, put the signature of an end record inside the end record. *)
Theorem C91_coincidences front count size offset : count < 0x10000 -> size < 0x100000000 -> offset < 0x100000000 ->
  (forall q, found_at (le 4 0x06054b50) (front ++ end_record 0 0 count count size offset 0) q -> q <= len front) <-> ~ spells count size offset.
Proof. exact (end_alone front count size offset). Qed.
Print Assumptions C91_coincidences.
(** 19280 empty files are enough, if their names are long enough together: the calls and the close all work, and nobody can open the archive. *)
Theorem C91_crowd cd sched a n b m : enc_takes cd -> obliging sched -> len a + 60 <= 65535 -> len b + 60 <= 65535 -> n + m = 0x4b50 ->
  (46 * (n + m) + n * len a + m * len b) mod 0x10000 = 0x0605 ->
  Forall handy (crowd a n b m) /\
  let '(xs, r, w) := run_archive cd sched (crowd a n b m) in
  xs = map (fun o => (o, Ok tt)) (crowd a n b m) /\ r = Ok tt /\
  forall cfg s, s_data s = w_bytes w -> nofail (s_sched s) -> fst (file cfg s) = Err (UpstreamReadError UnexpectedEof).
Proof. exact (crowd_unread cd sched a n b m). Qed.
Print Assumptions C91_crowd.
(** Such as 12885 files "ab" and 6395 files "c". *)
Theorem C91_refuted : exists l, Forall handy l /\ last_comment l = [] /\ forall cd sched, codec_ok cd -> obliging sched ->
  let '(xs, r, w) := run_archive cd sched l in
  xs = map (fun o => (o, Ok tt)) l /\ r = Ok tt /\
  forall cfg s, s_data s = w_bytes w -> nofail (s_sched s) -> fst (file cfg s) = Err (UpstreamReadError UnexpectedEof).
Proof.
  assert (G : forall (a : bytes) n (b : bytes) m, len a + 60 <= 65535 -> len b + 60 <= 65535 -> n + m = 0x4b50 -> (46 * (n + m) + n * len a + m * len b) mod 0x10000 = 0x0605 ->
    exists l, Forall handy l /\ last_comment l = [] /\ forall cd sched, codec_ok cd -> obliging sched ->
      let '(xs, r, w) := run_archive cd sched l in
      xs = map (fun o => (o, Ok tt)) l /\ r = Ok tt /\
      forall cfg s, s_data s = w_bytes w -> nofail (s_sched s) -> fst (file cfg s) = Err (UpstreamReadError UnexpectedEof)).
  { intros a n b m A B NM SZ. exists (crowd a n b m). split; [exact (proj1 (crowd_unread toy [] a n b m (proj1 toy_ok) ltac:(constructor) A B NM SZ))|].
    split; [apply crowd_comment|]. intros cd sched K OB. exact (proj2 (crowd_unread cd sched a n b m (proj1 K) OB A B NM SZ)). }
  apply (G [x61; x62] 12885 [x63] 6395); [discriminate|discriminate|reflexivity|reflexivity].
Qed.
Print Assumptions C91_refuted.

(** an archive with two entries, one of them a stream *)
Definition plain_pair : list wop := [OpWhole entry1 [x68; x69; x21]; OpStream false entry2 [SWriteAll [x01; x02]] true].
Example C91_case : codec_ok toy /\ Forall op_good plain_pair /\ last_comment plain_pair = [] /\
  let '(xs, r, w) := run_archive toy [] plain_pair in
  let d := w_bytes w in
  r = Ok tt /\ len d < 0x10000000000000000 /\ Forall (tame d) (recorded false xs) /\ ~ spelled_by (len (recorded false xs)) (directory_size (recorded false xs)) (len (w_bytes (snd (run_ops toy plain_pair (zw_new []))))) /\
  w_zip64 w = true /\ Forall (fun x => too_many (snd x) = false) xs /\ sizes_tell toy d (succeeded false xs) /\ len (succeeded false xs) * entry_mem_size cfg0 <= 0x7FFFFFFFFFFFFFFF /\
  match fst (file cfg0 (cursor d)) with Ok f => len (f_entries f) = 2 /\ zs_raw (f_comment f) = [] | _ => False end.
Proof.
  split; [exact toy_ok|]. split; [repeat constructor; cbn; discriminate|]. split; [reflexivity|].
  assert (H : let '(xs, r, w) := run_archive toy [] plain_pair in
    r = Ok tt /\ len (w_bytes w) <= 0xFFFFFFFF /\ xs = map (fun o => (o, Ok tt)) plain_pair /\ w_zip64 w = true /\
    match fst (file cfg0 (cursor (w_bytes w))) with Ok f => len (f_entries f) = 2 /\ zs_raw (f_comment f) = [] | _ => False end)
    by (vm_compute; repeat split; discriminate).
  destruct (run_archive toy [] plain_pair) as [[xs r] w]. destruct H as (R & L & -> & Z & F). cbv zeta. split; [exact R|]. split; [lia|].
  split; [cbn [plain_pair map recorded]; repeat constructor; try exact L; cbn; discriminate|]. split; [vm_compute; intuition discriminate|]. split; [exact Z|].
  split; [repeat constructor|]. split; [now left|]. split; [vm_compute; discriminate|exact F].
Qed.
