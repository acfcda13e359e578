(** Property theorems: reading an archive front to back. *)
From Verif Require Import Base SpecFormat SpecCrc SpecUtf8 SpecArchive SpecRead SpecWrite SpecStream ZString ZDate Headers ExtraField Entry
  IO IOFacts Reader EntryReader StreamReader Writer Samples WriteSamples StreamProofs StreamWalk.

(** * C35. [done] wants the entry read to its end, whatever was read before and however the source delivers. *)
Theorem C35_done cd s c n l e : nofail (s_sched s) ->
  let '(xs, r) := er_reads cd l (er_new s c n) in
  let w := take n (drop (s_pos s) (s_data s)) in
  let x desc := {| rd_reader := r; rd_entry := e; rd_descriptor := desc |} in
  (forall desc, stream_done cd (x desc) = Err EOFNotReached <-> delivered xs <> fst (decoded cd c w)) /\
  (delivered xs = fst (decoded cd c w) ->
     (forall k, entry_span cd c w = Some k -> exists s', stream_done cd (x false) = Ok s' /\ stands s' (s_data s) (s_pos s + k)) /\
     (entry_span cd c w = None -> forall desc, stream_done cd (x desc) = Err (UpstreamReadError InvalidData))).
Proof. exact (done_at cd s c n l e). Qed.
Print Assumptions C35_done.
Definition packed2 : source := {| s_data := data2 ++ [xaa; xbb]; s_pos := 0; s_sched := [RPending; RChunk 0; RPending; RChunk 7] |}.
Example C35_case : nofail (s_sched packed2) /\ entry_span toy Deflate (take 5 (drop 0 (data2 ++ [xaa; xbb]))) = Some 5 /\
  delivered (fst (er_reads toy [1] (er_new packed2 Deflate 5))) = [x78] /\
  stream_done toy {| rd_reader := snd (er_reads toy [1] (er_new packed2 Deflate 5)); rd_entry := entry2; rd_descriptor := false |} = Err EOFNotReached /\
  delivered (fst (er_reads toy [1; 4] (er_new packed2 Deflate 5))) = [x78; x79] /\
  exists s', stream_done toy {| rd_reader := snd (er_reads toy [1; 4] (er_new packed2 Deflate 5)); rd_entry := entry2; rd_descriptor := false |} = Ok s' /\
    s_pos s' = 5.
Proof. split; [repeat constructor|]. vm_compute. repeat split; try reflexivity. eexists. split; reflexivity. Qed.

(** * C34. 32-bit data descriptors are taken exactly: those with a signature, and those without one unless the CRC
    looks like the signature. *)
Theorem C34_descriptor_partial cd s c n l e k signed crc csize usize y : nofail (s_sched s) ->
  let '(xs, r) := er_reads cd l (er_new s c n) in
  let w := take n (drop (s_pos s) (s_data s)) in
  let x := {| rd_reader := r; rd_entry := e; rd_descriptor := true |} in
  let dd := descriptor signed false crc csize usize in
  entry_span cd c w = Some k -> drop (s_pos s + k) (s_data s) = dd ++ y -> crc < 0x100000000 ->
  (signed = false -> crc <> 0x08074b50) ->
  let q := s_pos s + k + len dd in
  (exists s', stream_skip cd x = Ok s' /\ stands s' (s_data s) q) /\
  (delivered xs = fst (decoded cd c w) -> exists s', stream_done cd x = Ok s' /\ stands s' (s_data s) q).
Proof. exact (descriptor32_left cd s c n l e k signed crc csize usize y). Qed.
Print Assumptions C34_descriptor_partial.
Definition before_dd (dd : bytes) : source := {| s_data := data2 ++ dd ++ [xaa; xbb; xcc; xdd; xee]; s_pos := 0; s_sched := [RPending; RChunk 0; RChunk 1] |}.
Definition all_read (dd : bytes) : reading :=
  {| rd_reader := snd (er_reads toy [8; 8] (er_new (before_dd dd) Deflate u64_max)); rd_entry := entry2; rd_descriptor := true |}.
Definition left_at (r : res source) : option N := match r with Ok s => Some (s_pos s) | _ => None end.
Example C34_case : let dd1 := descriptor true false 0x08074b50 7 9 in let dd2 := descriptor false false 0x12345678 7 9 in
  left_at (stream_done toy (all_read dd1)) = Some (5 + len dd1) /\ left_at (stream_skip toy (all_read dd1)) = Some (5 + len dd1) /\
  left_at (stream_done toy (all_read dd2)) = Some (5 + len dd2) /\ left_at (stream_skip toy (all_read dd2)) = Some (5 + len dd2).
Proof. vm_compute. repeat split; reflexivity. Qed.
(** Not the others: 64-bit sizes are never taken as such (8 bytes are left in the source), and without a signature a CRC
    equal to it costs the next header 4 bytes. *)
Theorem C34_misled cd s c n l e k signed wide crc csize usize y : nofail (s_sched s) ->
  let '(xs, r) := er_reads cd l (er_new s c n) in
  let w := take n (drop (s_pos s) (s_data s)) in
  let x := {| rd_reader := r; rd_entry := e; rd_descriptor := true |} in
  let dd := descriptor signed wide crc csize usize in
  entry_span cd c w = Some k -> drop (s_pos s + k) (s_data s) = dd ++ y -> crc < 0x100000000 -> 4 <= len y ->
  wide = true \/ signed = false /\ crc = 0x08074b50 ->
  exists s' p, stream_skip cd x = Ok s' /\ stands s' (s_data s) p /\ p <> s_pos s + k + len dd.
Proof. exact (descriptor_misled cd s c n l e k signed wide crc csize usize y). Qed.
Print Assumptions C34_misled.
Theorem C34_refuted : exists signed wide crc csize usize s, let dd := descriptor signed wide crc csize usize in
  crc < 0x100000000 /\ s_data s = data2 ++ dd ++ [xaa; xbb; xcc; xdd; xee] /\
  let x := {| rd_reader := er_new s Deflate u64_max; rd_entry := entry2; rd_descriptor := true |} in
  exists s', stream_skip toy x = Ok s' /\ s_pos s' = len data2 + len dd - 8.
Proof.
  exists true, true, 1, 7, 9, (cursor (data2 ++ descriptor true true 1 7 9 ++ [xaa; xbb; xcc; xdd; xee])).
  split; [reflexivity|]. split; [reflexivity|]. vm_compute. eexists. split; reflexivity.
Qed.
Print Assumptions C34_refuted.
Example C34_misled_case :
  left_at (stream_skip toy (all_read (descriptor true true 1 7 9))) = Some 21 /\ len (descriptor true true 1 7 9) = 24 /\
  left_at (stream_skip toy (all_read (descriptor false true 1 7 9))) = Some 17 /\ len (descriptor false true 1 7 9) = 20 /\
  left_at (stream_skip toy (all_read (descriptor false false 0x08074b50 7 9))) = Some 21 /\ len (descriptor false false 0x08074b50 7 9) = 12.
Proof. vm_compute. repeat split; reflexivity. Qed.

(** * C33. Walking through an archive this crate wrote. *)
Theorem C33_walk_partial cd cfg sched s l : codec_ok cd -> Forall op_good l -> Forall (fun o => dropped o = false) l ->
  let '(xs, r, w) := run_archive cd sched l in
  r = Ok tt -> Forall (fun x => worked (snd x) = true) xs -> len (w_bytes w) < 0x10000000000000000 ->
  Forall (fun x => streamable cd (snd x)) (succeeded false xs) -> succeeded false xs <> [] ->
  stands s (w_bytes w) 0 -> walks cd cfg (succeeded false xs) s.
Proof. exact (archive_walk cd cfg sched s l). Qed.
Print Assumptions C33_walk_partial.
Definition stroll : list wop :=
  [OpWhole entry1 [x68; x69; x21]; OpStream false entry2 [SWriteAll [x01; x02]; SFlush; SWriteAll [x06]] true; OpComment [x68];
   OpForceNoZip64; OpWholePre entry2 [x01; x55; x00]; OpStream true entry2 [SWriteAll [x01; x07]; SWriteAll [x00]] true].
Example C33_case : codec_ok toy /\ Forall op_good stroll /\ Forall (fun o => dropped o = false) stroll /\
  let '(xs, r, w) := run_archive toy bumpy stroll in
  r = Ok tt /\ Forall (fun x => worked (snd x) = true) xs /\ len (w_bytes w) < 0x10000000000000000 /\
  Forall (fun x => streamable toy (snd x)) (succeeded false xs) /\ len (succeeded false xs) = 4.
Proof.
  split; [exact toy_ok|]. split; [repeat constructor; cbn; discriminate|]. split; [repeat constructor|].
  assert (S : Forall (fun x => streamable toy (snd x)) [(false, OpWhole entry1 [x68; x69; x21]);
    (false, OpStream false entry2 [SWriteAll [x01; x02]; SFlush; SWriteAll [x06]] true); (true, OpWholePre entry2 [x01; x55; x00]);
    (true, OpStream true entry2 [SWriteAll [x01; x07]; SWriteAll [x00]] true)]).
  { constructor; [exact I|]. constructor; [discriminate|]. constructor; [right; now exists [x55]|].
    constructor; [split; [discriminate|now exists [x07]]|constructor]. }
  assert (H : let '(xs, r, w) := run_archive toy bumpy stroll in
    r = Ok tt /\ Forall (fun x => worked (snd x) = true) xs /\ (len (w_bytes w) <? 0x10000000000000000) = true /\
    succeeded false xs = [(false, OpWhole entry1 [x68; x69; x21]);
      (false, OpStream false entry2 [SWriteAll [x01; x02]; SFlush; SWriteAll [x06]] true); (true, OpWholePre entry2 [x01; x55; x00]);
      (true, OpStream true entry2 [SWriteAll [x01; x07]; SWriteAll [x00]] true)]).
  { vm_compute. split; [reflexivity|]. split; [repeat constructor|]. split; reflexivity. }
  destruct (run_archive toy bumpy stroll) as [[xs r] w]. destruct H as (H1 & H2 & H3 & H4). apply N.ltb_lt in H3. rewrite H4. auto.
Qed.
(** Not for every archive: at an archive without entries the reader reports an unexpected header instead of the end. *)
Theorem C33_refuted : exists l, let '(xs, r, w) := run_archive toy [] l in
  r = Ok tt /\ succeeded false xs = [] /\
  forall cfg s, stands s (w_bytes w) 0 -> fst (stream_next cfg s) = Err (UnexpectedHeaderError 0x06054b50 0x04034b50).
Proof. exists []. exact empty_archive_stream. Qed.
Print Assumptions C33_refuted.
(** An entry streamed without compression cannot be read this way at all. *)
Theorem C33_refuted_stored : exists l, let '(xs, r, w) := run_archive toy [] l in
  r = Ok tt /\ Forall (fun x => worked (snd x) = true) xs /\ len (succeeded false xs) = 1 /\
  fst (stream_next cfg0 (cursor (w_bytes w))) = Err (FeatureNotSupported FStreamStored).
Proof. exists [OpStream false entry1 [SWriteAll [x61]] true]. vm_compute. repeat split; try reflexivity. repeat constructor. Qed.
Print Assumptions C33_refuted_stored.
