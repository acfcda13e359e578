(** Property theorems: the archive, byte for byte. *)
From Verif Require Import Base BaseFacts SpecFormat SpecCrc SpecArchive SpecRead SpecWrite ZString ZDate Headers ExtraField Entry IO IOFacts Reader
  EntryReader Writer Samples WriteSamples SpecOrdinary AllWork SpecSize SpecImage ImageProofs.

(** * C73. The archive is known to the last byte. *)
(** When all calls worked and no entry was dropped half way, it is the entries one behind the other, one record for each, and the end
    records, with ZIP64 only where it was asked for or needed; of the run only the compressed data is not told by the calls. *)
Theorem C73_exact cd sched l : enc_takes cd -> Forall op_good l -> Forall (fun o => dropped o = false) l ->
  let '(xs, r, w) := run_archive cd sched l in
  r = Ok tt -> Forall (fun x => worked (snd x) = true) xs -> len (w_bytes w) < 0x10000000000000000 ->
  exists its, Forall2 (fun x it => leaves cd (fst x) (snd x) it) (succeeded false xs) its /\ w_bytes w = archive_image (existsb asks_zip64 l) its (last_comment l).
Proof. exact (exact_image cd sched l). Qed.
Print Assumptions C73_exact.
(** If the data goes in as it is, the calls tell everything. *)
Theorem C73_session cd sched l : enc_takes cd -> Forall op_good l -> Forall (fun o => dropped o = false) l -> Forall as_it_is l ->
  let '(xs, r, w) := run_archive cd sched l in
  r = Ok tt -> Forall (fun x => worked (snd x) = true) xs -> len (w_bytes w) < 0x10000000000000000 -> w_bytes w = session_image l.
Proof. exact (session_exact cd sched l). Qed.
Print Assumptions C73_session.
(** And on a sink without faults it all works. *)
Theorem C73_made cd sched l : enc_takes cd -> obliging sched -> Forall handy l -> Forall (fun o => dropped o = false) l -> Forall as_it_is l ->
  let '(xs, r, w) := run_archive cd sched l in
  xs = map (fun o => (o, Ok tt)) l /\ r = Ok tt /\ (len (w_bytes w) < 0x10000000000000000 -> w_bytes w = session_image l).
Proof. exact (session_made cd sched l). Qed.
Print Assumptions C73_made.

(** a file, a directory with a Unicode path field, a stream, data compressed before, under ZIP64, with a comment *)
Definition folder : zentry := mk_entry {| zs_enc := EUtf8; zs_raw := [xc3; xa9; x2f]; zs_alt := Some [x82; x2f] |} (utf8 []) Stored [XUnknown 7 1 [x05]].
Definition parcel : list wop :=
  [OpForceZip64; OpWhole entry1 [x68; x69; x21]; OpWhole folder []; OpComment [x68; x65; x79];
   OpStream false entry1 [SWriteAll [x01; x02]; SFlush; SWriteAll [x03]] true; OpStream true entry2 [SWriteAll [x07; x08]] true].
Lemma parcel_good : Forall op_good parcel.
Proof. repeat constructor; cbn; discriminate. Qed.
Lemma parcel_handy : Forall handy parcel.
Proof.
  assert (R1 : roomy entry1) by (unfold roomy; vm_compute; repeat split; discriminate). assert (R2 : roomy entry2) by (unfold roomy; vm_compute; repeat split; discriminate).
  assert (R3 : roomy folder) by (unfold roomy; vm_compute; repeat split; discriminate).
  pose proof parcel_good as G. rewrite Forall_forall in G. apply Forall_forall. intros o I. split; [|split; [now apply G|]]; cbn in I;
    repeat (destruct I as [<-|I]; [first [discriminate | split; [first [discriminate | exact (fun x => x)] | first [exact R1 | exact R2 | exact R3 | exact Logic.I]]]|]); elim I.
Qed.
Example C73_case : enc_takes toy /\ obliging bumpy /\ Forall handy parcel /\ Forall op_good parcel /\ Forall (fun o => dropped o = false) parcel /\ Forall as_it_is parcel /\
  (let '(xs, r, w) := run_archive toy bumpy parcel in
   worked r = true /\ forallb (fun x => worked (snd x)) xs = true /\ len (w_bytes w) = 633 /\ w_bytes w = session_image parcel).
Proof.
  split; [exact toy_takes|]. split; [repeat constructor; discriminate|]. split; [exact parcel_handy|]. split; [exact parcel_good|].
  split; [repeat constructor|]. split; [repeat constructor|]. vm_compute. repeat split; reflexivity.
Qed.
(** compressed data too *)
Example C73_packed_case : Forall op_good (firstn 3 history) /\ Forall (fun o => dropped o = false) (firstn 3 history) /\
  (let '(xs, r, w) := run_archive toy bumpy (firstn 3 history) in
   worked r = true /\ forallb (fun x => worked (snd x)) xs = true /\ len (succeeded false xs) = 2 /\ len (w_bytes w) < 0x1000).
Proof. split; [repeat constructor; cbn; discriminate|]. split; [repeat constructor|]. vm_compute. repeat split; reflexivity. Qed.
