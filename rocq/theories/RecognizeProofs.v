(** An archive that opens with the comment and the kind of end it was given is the archive that was written. *)
From Verif Require Import Base SpecFormat SpecCrc SpecUtf8 SpecArchive SpecRead SpecWrite SpecStrict SpecExact ZString ZDate Headers ExtraField Entry
  IO Locator Reader EntryReader Writer BaseFacts IOFacts ReaderFacts RoundTrip StrictProofs ExactProofs CloseFacts Zip64Proofs ArchiveProofs.

Lemma end_found zip64 n size off c front : let d := front ++ archive_end zip64 n size off c in
  found_at (le 4 0x06054b50) d (len d - 22 - len c) /\ 22 + len c <= len d.
Proof.
  cbv zeta. unfold archive_end.
  set (z := if zip64 then _ else []). set (e := end_record 0 0 _ _ _ _ _).
  assert (E : exists t, e = le 4 0x06054b50 ++ t /\ len e = 22) by (eexists; split; reflexivity).
  destruct E as (t & E & LE). rewrite !len_app, LE. split; [|lia].
  exists (front ++ z), (t ++ c). rewrite len_app. split; [|lia]. rewrite E, <- !app_assoc. reflexivity.
Qed.

Lemma recognized zip64 n size off c front cfg s f : s_data s = front ++ archive_end zip64 n size off c ->
  fst (file cfg s) = Ok f -> f_zip64 f = zip64 -> zs_raw (f_comment f) = c -> end_clear zip64 c (s_data s).
Proof.
  intros D F Z C. destruct (file_reads cfg s f F) as (x & rs & ((A & d1 & d2 & n1 & n2 & sz & of & cl & rest & N & CM & LO) & _ & _) & _ & Z' & C').
  pose proof (end_found zip64 n size off c front) as [FD LD]. cbv zeta in FD, LD. rewrite <- D in FD, LD.
  assert (RAW : n_comment x = c) by (destruct C'; exact C). clear C'.
  apply A in FD. pose proof (nums_long _ _ _ _ N) as L. change (widths_of _) with 22 in L. rewrite past_drop, len_drop in L.
  assert (LC : len c <= len rest /\ len c <= cl).
  { rewrite <- RAW, CM, upto_take, len_take. lia. }
  assert (CL : cl < 0x10000).
  { apply nums_inv in N. destruct N as (bs & _ & V & W). do 7 (destruct bs as [|? bs]; [discriminate|]). destruct bs as [|b bs]; [discriminate|].
    cbn [map] in V, W. injection V; intros; subst cl. injection W; intros _ W2. intros.
    rewrite value_from. pose proof (from_le_bound b) as B. unfold len in B. rewrite W2 in B. exact B. }
  split; [lia|].
  assert (AT : n_at x = len (s_data s) - 22 - len c) by lia.
  split.
  - intros q Q. apply A in Q. lia.
  - intros NZ q Q E. destruct (n_locator x) as [lo|]; [congruence|]. destruct LO as (LO & _). apply LO; [lia|].
    replace (n_at x - 20) with q by lia. exact Q.
Qed.

Lemma recognition cd cfg sched s l : codec_ok cd -> Forall op_good l ->
  let '(xs, r, w) := run_archive cd sched l in
  let d := w_bytes w in
  r = Ok tt -> len d < 0x10000000000000000 -> (w_zip64 w = true -> Forall (fun x => too_many (snd x) = false) xs) ->
  sizes_tell cd d (succeeded false xs) -> len (succeeded false xs) * entry_mem_size cfg <= 0x7FFFFFFFFFFFFFFF -> s_data s = d -> nofail (s_sched s) ->
  (end_clear (w_zip64 w) (last_comment l) d <->
   exists f, fst (file cfg s) = Ok f /\ f_zip64 f = w_zip64 w /\ zs_raw (f_comment f) = last_comment l).
Proof.
  intros K G. pose proof (read_back cd cfg sched s l K G) as H. pose proof (layout cd sched l (proj1 K) G) as Y.
  destruct (run_archive cd sched l) as [[xs r] w]. cbv zeta in *. intros R T1 T2 T3 T4 SD NF. split.
  - intro E. destruct (H R (conj T1 (conj T2 (conj T3 (conj E T4)))) SD NF) as (f & F & _ & Z & C & _). exists f. split; [exact F|]. split; [exact Z|].
    now destruct C.
  - intros (f & F & Z & C). destruct (Y R T1) as (body & its & ms & _ & D & _). rewrite <- SD. rewrite app_assoc in D. rewrite <- SD in D.
    exact (recognized _ _ _ _ _ _ cfg s f D F Z C).
Qed.

Lemma checked_back cd cfg sched s l f : codec_ok cd -> Forall op_good l ->
  let '(xs, r, w) := run_archive cd sched l in
  let d := w_bytes w in
  r = Ok tt -> len d < 0x10000000000000000 -> (w_zip64 w = true -> Forall (fun x => too_many (snd x) = false) xs) ->
  sizes_tell cd d (succeeded false xs) -> len (succeeded false xs) * entry_mem_size cfg <= 0x7FFFFFFFFFFFFFFF -> s_data s = d -> nofail (s_sched s) ->
  fst (file cfg s) = Ok f -> f_zip64 f = w_zip64 w -> zs_raw (f_comment f) = last_comment l ->
  Forall2 (fun x st => exists it, leaves cd (fst x) (snd x) it /\ as_written d it st /\ texts_kept it st) (succeeded false xs) (f_entries f) /\
  (forall i no64 o data, nth_error (succeeded false xs) (N.to_nat i) = Some (no64, o) -> holds cd o data ->
     (forall it, leaves cd no64 o it -> straight it) -> read_entry cd f i s = Ok data).
Proof.
  intros K G. pose proof (recognition cd cfg sched s l K G) as E. pose proof (read_back cd cfg sched s l K G) as H.
  destruct (run_archive cd sched l) as [[xs r] w]. cbv zeta in *. intros R T1 T2 T3 T4 SD NF F Z C.
  pose proof (proj2 (E R T1 T2 T3 T4 SD NF) (ex_intro _ f (conj F (conj Z C)))) as EC.
  destruct (H R (conj T1 (conj T2 (conj T3 (conj EC T4)))) SD NF) as (f' & F' & _ & _ & _ & F2 & RE).
  rewrite F in F'. injection F' as <-. split; [exact F2|]. intros i no64 o data I HO ST. now apply (RE i no64 o data I HO ST).
Qed.
