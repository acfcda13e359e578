(** Whole archives: the lemmas behind the property theorems. *)
From Verif Require Import Base BaseFacts Crc32 CrcFacts ZString ZDate Headers HeadersFacts ExtraField ExtraFieldFacts Entry IO IOFacts
  Locator LocatorFacts Reader EntryReader Writer WriterFacts WholeFacts StreamFacts SpecFormat SpecCrc SpecUtf8 SpecArchive SpecRead SpecWrite
  EntryProofs ReadProofs WriteProofs RecordFacts HistFacts CloseFacts RoundTrip TextFacts.
Arguments N.add : simpl never.
Arguments N.sub : simpl never.

(** ** C02 *)
Lemma layout cd sched l : enc_takes cd -> Forall op_good l ->
  let '(xs, r, w) := run_archive cd sched l in
  r = Ok tt -> len (w_bytes w) < 0x10000000000000000 ->
  exists body its ms, body = w_bytes (snd (run_ops cd l (zw_new sched))) /\
    w_bytes w = body ++ members ms ++ archive_end (w_zip64 w) (len ms) (len (members ms)) (len body) (last_comment l) /\
    Forall2 (fun x it => leaves cd (fst x) (snd x) it) (recorded false xs) its /\ Forall2 (written_in body) its ms.
Proof.
  intros T G. pose proof (archive_shape cd sched l T G) as H. destruct (run_archive cd sched l) as [[xs r] w]. intros R L.
  destruct (H R L) as (its & ms & SH). eexists _, its, ms. split; [reflexivity|]. split; [exact (sh_bytes _ _ _ _ _ _ _ _ SH)|].
  split; [exact (sh_items _ _ _ _ _ _ _ _ SH)|]. eapply Forall2_weaken; [|exact (sh_members _ _ _ _ _ _ _ _ SH)]. intros it a [W _]. exact W.
Qed.

(** ** C01, C11, C15, C24, C44, C45 *)
Lemma sits_more body rest it v f lx : sits body it v f lx -> sits (body ++ rest) it v f lx.
Proof. intros (b & t & E & L). exists b, (t ++ rest). split; [|exact L]. rewrite E. now rewrite <- !app_assoc. Qed.
(** everything there is to know about the entries of an archive *)
Definition entry_full (cd : codec) (d : bytes) (x : bool * wop) (st : stored_entry) : Prop :=
  exists it a v f lx, leaves cd (fst x) (snd x) it /\ laid_out it a v f lx /\ sits d it v f lx /\ reported a st /\ as_written d it st.
Lemma round_trip_full cd cfg sched s l : codec_ok cd -> Forall op_good l ->
  let '(xs, r, w) := run_archive cd sched l in
  let d := w_bytes w in
  r = Ok tt -> len d < 0x10000000000000000 ->
  (w_zip64 w = true -> Forall (fun x => too_many (snd x) = false) xs) ->
  sizes_tell cd d (succeeded false xs) -> end_clear (w_zip64 w) (last_comment l) d ->
  s_data s = d -> nofail (s_sched s) -> len (succeeded false xs) * entry_mem_size cfg <= isize_max ->
  exists f, fst (file cfg s) = Ok f /\ mem_new cfg d = Ok {| m_data := d; m_file := f |} /\ f_zip64 f = w_zip64 w /\
    comment_reads_as (last_comment l) (f_comment f) /\
    Forall2 (entry_full cd d) (succeeded false xs) (f_entries f) /\
    (forall i no64 o data, nth_error (succeeded false xs) (N.to_nat i) = Some (no64, o) -> holds cd o data ->
       (forall it, leaves cd no64 o it -> straight it) ->
       read_entry cd f i s = Ok data /\ mem_read_entry cd {| m_data := d; m_file := f |} i = Ok data).
Proof.
  intros K G. pose proof (archive_shape cd sched l (proj1 K) G) as H. destruct (run_archive cd sched l) as [[xs r] w]. cbv zeta.
  intros R L TM SC EC SD NF MEM. destruct (H R L) as (its & ms & SH).
  destruct (archive_back _ cfg s _ _ _ _ _ _ _ SH TM SC EC L SD NF MEM) as (f & F & Z & C & F2).
  exists f. split; [exact F|]. split.
  { unfold mem_new. pose proof (file_nofail cfg s NF) as FN. rewrite SD in FN. rewrite <- FN, F. reflexivity. }
  split; [exact Z|]. split; [exact C|]. split.
  - eapply Forall2_weaken; [|exact F2]. cbv beta. intros x st (it & a & L1 & ((v & g & lx & LO & SI) & _) & R1 & W).
    exists it, a, v, g, lx. split; [exact L1|]. split; [exact LO|]. split; [|now split].
    rewrite (sh_bytes _ _ _ _ _ _ _ _ SH). now apply sits_more.
  - intros i no64 o data N1 HD ST. now apply (archive_read cd xs (w_bytes w) _ f i s no64 o data K NF SD F2 N1 HD).
Qed.
Lemma round_trip cd cfg sched s l : codec_ok cd -> Forall op_good l ->
  let '(xs, r, w) := run_archive cd sched l in
  let d := w_bytes w in
  r = Ok tt -> len d < 0x10000000000000000 ->
  (w_zip64 w = true -> Forall (fun x => too_many (snd x) = false) xs) ->
  sizes_tell cd d (succeeded false xs) -> end_clear (w_zip64 w) (last_comment l) d ->
  s_data s = d -> nofail (s_sched s) -> len (succeeded false xs) * entry_mem_size cfg <= isize_max ->
  exists f, fst (file cfg s) = Ok f /\ mem_new cfg d = Ok {| m_data := d; m_file := f |} /\ f_zip64 f = w_zip64 w /\
    comment_reads_as (last_comment l) (f_comment f) /\
    Forall2 (fun x st => exists it, leaves cd (fst x) (snd x) it /\ as_written d it st /\ texts_kept it st) (succeeded false xs) (f_entries f) /\
    (forall i no64 o data, nth_error (succeeded false xs) (N.to_nat i) = Some (no64, o) -> holds cd o data ->
       (forall it, leaves cd no64 o it -> straight it) ->
       read_entry cd f i s = Ok data /\ mem_read_entry cd {| m_data := d; m_file := f |} i = Ok data).
Proof.
  intros K G. pose proof (round_trip_full cd cfg sched s l K G) as H. destruct (run_archive cd sched l) as [[xs r] w]. cbv zeta in *.
  intros R L TM SC EC SD NF MEM. destruct (H R L TM SC EC SD NF MEM) as (f & F & M & Z & C & F2 & RD).
  exists f. split; [exact F|]. split; [exact M|]. split; [exact Z|]. split; [exact C|]. split; [|exact RD].
  eapply Forall2_weaken; [|exact F2]. cbv beta. intros x st (it & a & v & g & lx & L1 & LO & SI & R1 & W).
  exists it. split; [exact L1|]. split; [exact W|]. intros (S1 & S2 & TC). now apply (texts_back it a v g lx st LO R1).
Qed.
