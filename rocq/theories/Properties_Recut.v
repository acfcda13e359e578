(** Properties C54 and C55. *)
From Verif Require Import Base BaseFacts SpecFormat SpecCrc SpecUtf8 SpecArchive SpecRead SpecWrite ZString ZDate Headers ExtraField Entry IO IOFacts Reader
  EntryReader Writer EntryProofs Samples WriteSamples InnerMut SpecRecut RecutProofs.

(** * C54. The archive does not depend on how stored data was cut into writes. *)
Theorem C54_recut cd s1 s2 l1 l2 : enc_takes cd -> obliging s1 -> obliging s2 -> Forall2 recut l1 l2 ->
  let '(xs1, r1, w1) := run_archive cd s1 l1 in let '(xs2, r2, w2) := run_archive cd s2 l2 in
  map snd xs1 = map snd xs2 /\ r1 = r2 /\ w_bytes w1 = w_bytes w2.
Proof. exact (recut_alike cd s1 s2 l1 l2). Qed.
Print Assumptions C54_recut.
Definition in_pieces : list wop :=
  [OpStream false entry1 [SWriteAll [x09]; SFlush; SWriteAll []; SWriteAll [x08; x07]] true; OpWhole entry2 [x01];
   OpStream true entry2 [SWriteAll [x01]; SWriteAll [x02]] false; OpStream true entry2 [SWriteAll [x01]; SWriteAll [x02]; SFlush] true].
Definition at_once : list wop :=
  [OpStream false entry1 [SWriteAll [x09; x08; x07]] true; OpWhole entry2 [x01];
   OpStream true entry2 [SWriteAll [x01; x02]] false; OpStream true entry2 [SFlush; SWriteAll [x01; x02]] true].
Example C54_case : enc_takes toy /\ obliging bumpy /\ obliging [] /\ Forall2 recut in_pieces at_once /\
  let '(xs1, r1, w1) := run_archive toy bumpy in_pieces in let '(xs2, r2, w2) := run_archive toy [] at_once in
  map snd xs1 = [Ok tt; Ok tt; Ok tt; Ok tt] /\ len (w_bytes w1) = len (w_bytes w2) /\ len (w_bytes w1) = 589 /\
  k_flushes (w_sink w1) <> k_flushes (w_sink w2).
Proof.
  split; [exact toy_takes|]. split; [repeat constructor; discriminate|]. split; [constructor|]. split.
  - unfold in_pieces, at_once. constructor. { apply recut_stream. now right. reflexivity. } constructor. { apply recut_same. } constructor. { apply recut_stream. now left. reflexivity. } constructor. { apply recut_stream. now left. reflexivity. } constructor.
  - vm_compute. repeat split; try reflexivity. discriminate.
Qed.

(** * C55. What is written to the inner writer is not counted. *)
(** The calls go on as if nothing had happened and the bytes come to lie in between: what was there before stays where it
    is, what follows is [len b] further on than the offsets say. *)
Theorem C55_inner_partial cd sched l1 b l2 :
  let '(xs, r, w) := run_archive cd sched (l1 ++ l2) in
  let '(ys, q, v) := run_meddled cd sched l1 b l2 in
  ys = xs /\ q = r /\ w_offset v = w_offset w /\
  let front := w_bytes (snd (run_ops cd l1 (zw_new sched))) in
  exists rest, w_bytes w = front ++ rest /\ w_bytes v = front ++ b ++ rest.
Proof. exact (meddled cd sched l1 b l2). Qed.
Print Assumptions C55_inner_partial.
Definition before : list wop := [OpWhole entry1 [x07]].
Definition after : list wop := [OpWhole entry1 [x08; x09]].
Example C55_case : let '(xs, r, w) := run_archive toy bumpy (before ++ after) in
  let '(ys, q, v) := run_meddled toy bumpy before [x23; x23] after in
  map snd xs = [Ok tt; Ok tt] /\ r = Ok tt /\ len (w_bytes w) = 207 /\ len (w_bytes v) = 209 /\ w_offset v = 207.
Proof. vm_compute. repeat split; reflexivity. Qed.
(** Every call works and the archive does not open, though without that byte it does. *)
Theorem C55_refuted : exists l1 b l2, Forall op_good (l1 ++ l2) /\
  (let '(ys, q, v) := run_meddled toy [] l1 b l2 in
   Forall (fun x => snd x = Ok tt) ys /\ q = Ok tt /\ exists found, mem_new cfg0 (w_bytes v) = Err (UnexpectedHeaderError found 0x02014b50)) /\
  (let '(xs, r, w) := run_archive toy [] (l1 ++ l2) in match mem_new cfg0 (w_bytes w) with Ok m => len (f_entries (m_file m)) = 2 | _ => False end).
Proof.
  exists before, [x23], after. split; [repeat constructor; cbn; discriminate|]. split.
  - vm_compute. split; [repeat constructor|]. split; [reflexivity|]. eexists. reflexivity.
  - vm_compute. reflexivity.
Qed.
Print Assumptions C55_refuted.
