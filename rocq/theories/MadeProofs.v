(** What holds for archives written by calls holds however the session went. *)
From Verif Require Import Base BaseFacts SpecFormat SpecCrc SpecUtf8 SpecArchive SpecRead SpecWrite SpecEncoder SpecBlame SpecMade SpecExact SpecPad SpecApart SpecStrict
  SpecAccept SpecRepack SpecOrdinary SpecLax SpecInterop OrdinaryProofs InteropProofs SpecSize SpecSpells SpecDirectory SpecTold ZString ZDate Headers ExtraField Entry IO IOFacts Reader EntryReader Writer StreamPolls EncoderPolls AwaitedWrites
  RoundTrip Zip64Proofs CloseFacts EncoderProofs BlameProofs CutProofs PadProofs LocalityProofs ApartProofs CommentlessProofs RecognizeProofs ToldProofs.
From Verif Require Import ChainFacts.

Lemma made_chain cd xs body z d : enc_takes cd -> made cd xs body z d ->
  exists sched w w', chain cd (zw_new sched) xs w /\ zw_close w = (Ok tt, w') /\ body = w_bytes w /\ z = w_zip64 w' /\ d = w_bytes w'.
Proof.
  intro T. destruct 1 as [sched l xs w w' G R C|E view sched l outs w w' OK R C G NI|E view k sched l outs w w' OK G R C]; exists sched, w, w'; (split; [|auto]).
  - pose proof (calls_chain cd l T G (zw_new sched)) as H. rewrite R in H. exact (proj1 H).
  - pose proof (visits_chain cd E view T OK l (zw_new sched)) as H. rewrite R in H. rewrite Forall_map in G. exact (H G NI).
  - pose proof (settled_chain cd E view k T OK l (zw_new sched) G) as H. rewrite R in H. exact (proj2 H).
Qed.
Lemma made_shape cd xs body z d : enc_takes cd -> made cd xs body z d -> len d < 0x10000000000000000 ->
  exists its ms, shape cd (map fst xs) xs d z body its ms.
Proof.
  intros T M L. destruct (made_chain _ _ _ _ _ T M) as (sched & w & w' & CH & C & -> & -> & ->). exact (chain_shape _ _ _ _ _ CH C L).
Qed.

Lemma made_layout cd xs body z d : enc_takes cd -> made cd xs body z d -> len d < 0x10000000000000000 ->
  exists its ms, d = body ++ members ms ++ archive_end z (len ms) (len (members ms)) (len body) (last_comment (map fst xs)) /\
    Forall2 (fun x it => leaves cd (fst x) (snd x) it) (recorded false xs) its /\ Forall2 (written_in body) its ms.
Proof.
  intros T M L. destruct (made_shape _ _ _ _ _ T M L) as (its & ms & SH). exists its, ms. split; [exact (sh_bytes _ _ _ _ _ _ _ _ SH)|].
  split; [exact (sh_items _ _ _ _ _ _ _ _ SH)|]. eapply Forall2_weaken; [|exact (sh_members _ _ _ _ _ _ _ _ SH)]. intros it a [W _]. exact W.
Qed.
Lemma made_back cd cfg s xs body z d : codec_ok cd -> made cd xs body z d -> unambiguous cd cfg (map fst xs) xs z d -> s_data s = d -> nofail (s_sched s) ->
  exists f, fst (file cfg s) = Ok f /\ mem_new cfg d = Ok {| m_data := d; m_file := f |} /\ f_zip64 f = z /\
    comment_reads_as (last_comment (map fst xs)) (f_comment f) /\
    Forall2 (fun x st => exists it, leaves cd (fst x) (snd x) it /\ as_written d it st /\ texts_kept it st) (succeeded false xs) (f_entries f) /\
    (forall i no64 o data, nth_error (succeeded false xs) (N.to_nat i) = Some (no64, o) -> holds cd o data ->
       (forall it, leaves cd no64 o it -> straight it) ->
       read_entry cd f i s = Ok data /\ mem_read_entry cd {| m_data := d; m_file := f |} i = Ok data).
Proof.
  intros K M U. destruct (made_shape _ _ _ _ _ (proj1 K) M (proj1 U)) as (its & ms & SH). exact (shape_back cd cfg s _ _ _ _ _ _ _ K SH U).
Qed.
Lemma made_padded cd cfg s t xs body z d : codec_ok cd -> made cd xs body z d ->
  unambiguous cd cfg (map fst xs) xs z d -> no_new_end d t -> s_data s = d ++ t -> nofail (s_sched s) ->
  if 22 + len (last_comment (map fst xs)) + len t <=? 67456 then
    exists f, fst (file cfg (cursor d)) = Ok f /\ fst (file cfg s) = Ok f /\ f_zip64 f = z /\ comment_reads_as (last_comment (map fst xs)) (f_comment f) /\
      Forall2 (fun x st => exists it, leaves cd (fst x) (snd x) it /\ as_written d it st /\ texts_kept it st) (succeeded false xs) (f_entries f) /\
      (forall i no64 o data, nth_error (succeeded false xs) (N.to_nat i) = Some (no64, o) -> holds cd o data ->
         (forall it, leaves cd no64 o it -> straight it) -> read_entry cd f i s = Ok data)
  else fst (file cfg s) = Err UnableToLocateEOCDR.
Proof.
  intros K M U. destruct (made_shape _ _ _ _ _ (proj1 K) M (proj1 U)) as (its & ms & SH). exact (shape_padded cd cfg s _ t _ _ _ _ _ _ K SH U).
Qed.
Lemma made_front cd cfg s b xs body z d : codec_ok cd -> made cd xs body z d ->
  unambiguous cd cfg (map fst xs) xs z d -> z = true \/ succeeded false xs <> [] -> len b = len body ->
  s_data s = b ++ drop (len body) d -> nofail (s_sched s) ->
  exists f, fst (file cfg (cursor d)) = Ok f /\ fst (file cfg s) = Ok f /\ f_zip64 f = z /\ comment_reads_as (last_comment (map fst xs)) (f_comment f) /\
    Forall2 (fun x st => exists it, leaves cd (fst x) (snd x) it /\ as_written d it st /\ texts_kept it st) (succeeded false xs) (f_entries f).
Proof.
  intros K M U. destruct (made_shape _ _ _ _ _ (proj1 K) M (proj1 U)) as (its & ms & SH). exact (shape_front cd cfg s _ b _ _ _ _ _ _ K SH U).
Qed.
Lemma made_apart cd cfg s xs body z d : codec_ok cd -> made cd xs body z d -> unambiguous cd cfg (map fst xs) xs z d -> s_data s = d -> nofail (s_sched s) ->
  Forall (fun x => forall it, leaves cd (fst x) (snd x) it -> straight it) (succeeded false xs) ->
  exists f, fst (file cfg s) = Ok f /\ one_behind_other d 0 (f_entries f) (len body).
Proof.
  intros K M (U1 & U2 & U3 & U4 & U5) SD NF ST. destruct (made_shape _ _ _ _ _ (proj1 K) M U1) as (its & ms & SH).
  now apply (apart_back _ cfg s _ _ _ _ _ _ _ SH).
Qed.
Lemma made_cut cd cfg s n xs body z d : codec_ok cd -> made cd xs body z d -> len d < 0x10000000000000000 ->
  let e := len d - len (last_comment (map fst xs)) - 22 in
  (forall q, found_at (le 4 0x06054b50) d q -> q = e) ->
  s_data s = take n d -> nofail (s_sched s) -> n + len (last_comment (map fst xs)) < len d ->
  fst (file cfg s) = if n <? e + 4 then Err UnableToLocateEOCDR else Err (UpstreamReadError UnexpectedEof).
Proof.
  intros K M L. destruct (made_shape _ _ _ _ _ (proj1 K) M L) as (its & ms & SH). exact (shape_cut cd cfg s _ n _ _ _ _ _ _ SH).
Qed.
Lemma made_cut_comment cd cfg s n xs body z d : codec_ok cd -> made cd xs body z d ->
  unambiguous cd cfg (map fst xs) xs z d -> s_data s = take n d -> nofail (s_sched s) ->
  len d <= n + len (last_comment (map fst xs)) -> n <= len d ->
  exists f f', fst (file cfg (cursor d)) = Ok f /\ fst (file cfg s) = Ok f' /\
    f_entries f' = f_entries f /\ f_zip64 f' = f_zip64 f /\
    comment_reads_as (last_comment (map fst xs)) (f_comment f) /\
    comment_reads_as (take (n + len (last_comment (map fst xs)) - len d) (last_comment (map fst xs))) (f_comment f').
Proof.
  intros K M U. destruct (made_shape _ _ _ _ _ (proj1 K) M (proj1 U)) as (its & ms & SH). exact (shape_cut_comment cd cfg s _ n _ _ _ _ _ _ SH U).
Qed.
Lemma made_commentless cd cfg s xs body z d : codec_ok cd -> made cd xs body z d -> last_comment (map fst xs) = [] ->
  len d < 0x10000000000000000 -> s_data s = d -> nofail (s_sched s) ->
  exists body records, d = body ++ records ++ archive_end z (len (recorded false xs)) (len records) (len body) [] /\
    (Forall (tame d) (recorded false xs) -> len records = directory_size (recorded false xs)) /\
    (spelled_by (len (recorded false xs)) (len records) (len body) -> fst (file cfg s) = Err (UpstreamReadError UnexpectedEof)) /\
    (~ spelled_by (len (recorded false xs)) (len records) (len body) ->
     (z = false -> forall q, found_at (le 4 0x07064b50) d q -> q + 42 <> len d) ->
     (z = true -> Forall (fun x => too_many (snd x) = false) xs) -> sizes_tell cd d (succeeded false xs) ->
     len (succeeded false xs) * entry_mem_size cfg <= 0x7FFFFFFFFFFFFFFF ->
     exists f, fst (file cfg s) = Ok f /\ f_zip64 f = z /\ zs_raw (f_comment f) = [] /\
       Forall2 (fun x st => exists it, leaves cd (fst x) (snd x) it /\ as_written d it st /\ texts_kept it st) (succeeded false xs) (f_entries f) /\
       (forall i no64 o data, nth_error (succeeded false xs) (N.to_nat i) = Some (no64, o) -> holds cd o data ->
          (forall it, leaves cd no64 o it -> straight it) -> read_entry cd f i s = Ok data)).
Proof.
  intros K M LC L. destruct (made_shape _ _ _ _ _ (proj1 K) M L) as (its & ms & SH). exact (shape_commentless cd cfg s _ _ _ _ _ _ _ K SH LC L).
Qed.
Lemma made_recognized cd cfg s xs body z d : codec_ok cd -> made cd xs body z d -> len d < 0x10000000000000000 -> (z = true -> Forall (fun x => too_many (snd x) = false) xs) ->
  sizes_tell cd d (succeeded false xs) -> len (succeeded false xs) * entry_mem_size cfg <= 0x7FFFFFFFFFFFFFFF -> s_data s = d -> nofail (s_sched s) ->
  (end_clear z (last_comment (map fst xs)) d <->
   exists f, fst (file cfg s) = Ok f /\ f_zip64 f = z /\ zs_raw (f_comment f) = last_comment (map fst xs)).
Proof.
  intros K M L T1 T2 T3 SD NF. split.
  - intro E. destruct (made_back cd cfg s xs body z d K M (conj L (conj T1 (conj T2 (conj E T3)))) SD NF) as (f & F & _ & Z & C & _). exists f. split; [exact F|]. split; [exact Z|].
    now destruct C.
  - intros (f & F & Z & C). destruct (made_layout _ _ _ _ _ (proj1 K) M L) as (its & ms & D & _). rewrite <- SD. rewrite app_assoc in D. rewrite <- SD in D.
    exact (recognized _ _ _ _ _ _ cfg s f D F Z C).
Qed.
Lemma made_told cd cfg xs1 b1 z1 xs2 b2 z2 d : codec_ok cd -> made cd xs1 b1 z1 d -> made cd xs2 b2 z2 d ->
  unambiguous cd cfg (map fst xs1) xs1 z1 d -> unambiguous cd cfg (map fst xs2) xs2 z2 d ->
  z1 = z2 /\ last_comment (map fst xs1) = last_comment (map fst xs2) /\
  Forall2 (fun x y => exists a b, leaves cd (fst x) (snd x) a /\ leaves cd (fst y) (snd y) b /\ indistinct a b) (succeeded false xs1) (succeeded false xs2) /\
  (forall i n1 o1 d1 n2 o2 d2, nth_error (succeeded false xs1) i = Some (n1, o1) -> nth_error (succeeded false xs2) i = Some (n2, o2) ->
     holds cd o1 d1 -> holds cd o2 d2 -> (forall it, leaves cd n1 o1 it -> straight it) -> (forall it, leaves cd n2 o2 it -> straight it) -> d1 = d2).
Proof.
  intros K M1 M2 U1 U2. destruct (made_back cd cfg (cursor d) _ _ _ _ K M1 U1 eq_refl (Forall_nil _)) as (f & F1 & _ & Z1 & C1 & T1 & D1).
  destruct (made_back cd cfg (cursor d) _ _ _ _ K M2 U2 eq_refl (Forall_nil _)) as (g & F2 & _ & Z2 & C2 & T2 & D2).
  rewrite F1 in F2. injection F2 as <-.
  apply (same_back cd f d (cursor d)); (split; [assumption|split; [assumption|split; [assumption|]]]).
  - intros i no64 o data I HO ST. exact (proj1 (D1 i no64 o data I HO ST)).
  - intros i no64 o data I HO ST. exact (proj1 (D2 i no64 o data I HO ST)).
Qed.
Lemma made_ordinary cd cfg xs body z d : enc_takes cd -> made cd xs body z d -> Forall (fun x => too_many (snd x) = false) xs ->
  ordinary (map fst xs) -> entry_mem_size cfg <= 0x1000000000000 -> len d < 0x5000000 ->
  z = true \/ succeeded false xs <> [] /\ Forall ordinary_op (map fst xs) \/ len d < 42 + len (last_comment (map fst xs)) -> unambiguous cd cfg (map fst xs) xs z d.
Proof.
  intros T M TM O ME L CASES. destruct (made_shape _ _ _ _ _ T M ltac:(lia)) as (its & ms & SH).
  exact (shape_unambiguous cd cfg _ _ _ _ _ _ _ SH eq_refl TM O ME L CASES).
Qed.
Lemma made_seen cd xs body z d : codec_ok cd -> made cd xs body z d -> len d < 0x10000000000000000 ->
  Forall (fun x => too_many (snd x) = false) xs -> sizes_tell cd d (succeeded false xs) ->
  others_clear z (last_comment (map fst xs)) d -> (z = true \/ len d <= 0xFFFFFFFF) ->
  (len d <= 0xFFFFFFFF \/ ~ found_at (le 4 0x04034b50) d 0xFFFFFFFF) -> Forall (unexchanged cd) (succeeded false xs) -> Forall (told_right cd) (succeeded false xs) ->
  exists vs, sights cd d = Some vs /\ Forall2 (fun x v => seen_as cd (snd x) v) (succeeded false xs) vs.
Proof.
  intros K M L. destruct (made_shape _ _ _ _ _ (proj1 K) M L) as (its & ms & SH). exact (shape_seen cd _ _ _ _ _ _ _ K SH L).
Qed.
