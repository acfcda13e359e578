(** Archives that were cut short. *)
From Verif Require Import Base BaseFacts Crc32 ZString ZDate Headers HeadersFacts ExtraField Entry IO IOFacts Locator LocatorFacts
  Reader ReaderFacts OpenFacts EntryReader Writer WriterFacts SpecFormat SpecCrc SpecUtf8 SpecArchive SpecRead SpecWrite
  EntryProofs ReadProofs WriteProofs RecordFacts HistFacts CloseFacts RoundTrip.
Arguments N.add : simpl never.
Arguments N.sub : simpl never.

Lemma found_take sig d n p : found_at sig (take n d) p -> found_at sig d p /\ p + len sig <= n.
Proof.
  intros (a & b & E & L). split.
  - exists a, (b ++ drop n d). split; [|exact L]. rewrite <- (take_drop n d) at 1. rewrite E. now rewrite <- !app_assoc.
  - assert (H : len (take n d) <= n) by (rewrite len_take; lia). rewrite E, !len_app in H. lia.
Qed.

(** cut before the end of the end record *)
Lemma cut_early cfg s d e n : found_at (le 4 0x06054b50) d e ->
  (forall q, found_at (le 4 0x06054b50) d q -> q = e) -> s_data s = take n d -> nofail (s_sched s) -> n < e + 22 ->
  fst (file cfg s) = if n <? e + 4 then Err UnableToLocateEOCDR else Err (UpstreamReadError UnexpectedEof).
Proof.
  intros F U SD NF LN. rewrite file_any_schedule by exact NF. rewrite SD.
  change (le 4 0x06054b50) with EOCDR_SIG in *.
  assert (LD : len (take n d) <= n) by (rewrite len_take; lia).
  destruct (n <? e + 4) eqn:E4.
  - destruct (locate_spec (take n d) (s_pos s)) as [(q & Q & L4 & O & _)|(Q & _)].
    + apply found_take in O as [O LQ]. apply U in O. change (len EOCDR_SIG) with 4 in LQ. lia.
    + unfold file, bind. unfold locate in Q. destruct (eocdr_locate (src (take n d) (s_pos s))) as [r s1]. cbn [fst] in Q. subst r. reflexivity.
  - destruct F as (a & b & D & LA).
    assert (O1 : found_at EOCDR_SIG (take n d) e).
    { exists a, (take (n - e - 4) b). split; [|exact LA]. rewrite D, app_assoc, take_app, take_all, <- app_assoc.
      - f_equal. f_equal. f_equal. rewrite len_app. change (len EOCDR_SIG) with 4. lia.
      - rewrite len_app. change (len EOCDR_SIG) with 4. lia. }
    destruct (locate_spec (take n d) (s_pos s)) as [(q & Q & L4 & O & _)|(Q & H)].
    + apply found_take in O as [O LQ]. apply U in O.
      destruct (eocdr_locate_calm _ _ _ Q) as [p1 H1]. unfold file. rewrite (bind_ok _ _ _ _ _ H1).
      rewrite (bind_ok _ _ _ _ _ (seek_start_src q (take n d) p1)).
      unfold eocdr_from_reader, bind at 1, bind at 1. rewrite read_exact_calm. unfold exact_result, avail. cbn [s_data s_pos src].
      replace (18 <=? len (drop q (take n d))) with false by (rewrite len_drop; lia). reflexivity.
    + specialize (H _ O1). lia.
Qed.

(** cut inside the archive comment *)
Lemma shape_cut_comment cd cfg s l n xs d z body its ms : shape cd l xs d z body its ms ->
  unambiguous cd cfg l xs z d -> s_data s = take n d -> nofail (s_sched s) ->
  len d <= n + len (last_comment l) -> n <= len d ->
  exists f f', fst (file cfg (cursor d)) = Ok f /\ fst (file cfg s) = Ok f' /\
    f_entries f' = f_entries f /\ f_zip64 f' = f_zip64 f /\
    comment_reads_as (last_comment l) (f_comment f) /\
    comment_reads_as (take (n + len (last_comment l) - len d) (last_comment l)) (f_comment f').
Proof.
  intros SH (L & TM & SC & EC & MEM) SD NF LN LN2.
  destruct (listed_ok _ _ _ _ _ _ _ _ SH TM SC) as [MO LL].
  destruct (members_views cfg _ MO) as (es & Hv & _).
  set (c := last_comment l) in *. set (k := n + len c - len d).
  pose proof EC as (LC & C1 & C2).
  pose proof (sh_bytes _ _ _ _ _ _ _ _ SH) as D. fold c in D. rewrite archive_end_head, (N.mod_small (len c)) in D by lia.
  set (hd := end_head z (len ms) (len (members ms)) (len body) (len c)) in *.
  assert (T : take n d = body ++ members ms ++ hd ++ take k c).
  { assert (LD : len d = len (body ++ members ms ++ hd) + len c) by (rewrite D at 1; rewrite !len_app; lia).
    rewrite D at 1. rewrite !app_assoc, <- (app_assoc body). rewrite take_app, take_all by (unfold k in *; lia).
    rewrite <- !app_assoc. do 4 f_equal. unfold k. lia. }
  assert (LT : len (take n d) = n) by (rewrite len_take; lia).
  assert (LK : len (take k c) = k) by (rewrite len_take; unfold k; lia).
  exists {| f_entries := es; f_zip64 := z; f_comment := zs_new (take (len c) c) EUtf8 |},
         {| f_entries := es; f_zip64 := z; f_comment := zs_new (take (len c) (take k c)) EUtf8 |}.
  split; [|split; [|split; [reflexivity|split; [reflexivity|]]]].
  - apply (archive_views cfg (cursor d) d z body ms es (len c) c); try assumption; try reflexivity; try lia.
    + intro F. now apply (sh_far _ _ _ _ _ _ _ _ SH).
    + constructor.
    + rewrite LL. exact MEM.
  - apply (archive_views cfg s (take n d) z body ms es (len c) (take k c)); try assumption; try lia.
    + intro F. now apply (sh_far _ _ _ _ _ _ _ _ SH).
    + split; [lia|]. split.
      * intros q Q. apply found_take in Q as [Q _]. specialize (C1 q Q). unfold k in *. lia.
      * intros Z q Q. apply found_take in Q as [Q _]. specialize (C2 Z q Q). unfold k in *. lia.
    + rewrite LL. exact MEM.
  - cbn [f_comment]. rewrite (take_all (len c) c), (take_all (len c) (take k c)) by (rewrite ?len_take; lia). split; apply zs_comment.
Qed.

Lemma cut_comment cd cfg sched s l n : codec_ok cd -> Forall op_good l ->
  let '(xs, r, w) := run_archive cd sched l in
  let d := w_bytes w in
  r = Ok tt -> unambiguous cd cfg l xs (w_zip64 w) d -> s_data s = take n d -> nofail (s_sched s) ->
  len d <= n + len (last_comment l) -> n <= len d ->
  exists f f', fst (file cfg (cursor d)) = Ok f /\ fst (file cfg s) = Ok f' /\
    f_entries f' = f_entries f /\ f_zip64 f' = f_zip64 f /\
    comment_reads_as (last_comment l) (f_comment f) /\
    comment_reads_as (take (n + len (last_comment l) - len d) (last_comment l)) (f_comment f').
Proof.
  intros K G. pose proof (archive_shape cd sched l (proj1 K) G) as H. destruct (run_archive cd sched l) as [[xs r] w]. cbv zeta.
  intros R U. destruct (H R (proj1 U)) as (its & ms & SH). exact (shape_cut_comment _ _ _ _ _ _ _ _ _ _ _ SH U).
Qed.

(** cut anywhere before the archive comment, in an archive with no other end-record signature *)
Lemma shape_cut cd cfg s l n xs d z body its ms : shape cd l xs d z body its ms ->
  let e := len d - len (last_comment l) - 22 in
  (forall q, found_at (le 4 0x06054b50) d q -> q = e) ->
  s_data s = take n d -> nofail (s_sched s) -> n + len (last_comment l) < len d ->
  fst (file cfg s) = if n <? e + 4 then Err UnableToLocateEOCDR else Err (UpstreamReadError UnexpectedEof).
Proof.
  cbv zeta. intros SH U SD NF LN.
  pose proof (sh_bytes _ _ _ _ _ _ _ _ SH) as D. rewrite archive_end_head in D. unfold end_head in D.
  set (c := last_comment l) in *.
  assert (F : exists q, found_at (le 4 0x06054b50) d q /\ q + 22 + len c = len d).
  { match type of D with d = ?b ++ ?m ++ (?z ++ ?e) ++ c =>
      exists (len (b ++ m ++ z)); split; [|rewrite D at 1; rewrite !len_app] end.
    - match type of D with d = ?b ++ ?m ++ (?z ++ ?e) ++ c =>
        exists (b ++ m ++ z), (drop 4 e ++ c); split; [|reflexivity]; rewrite D at 1 end.
      rewrite <- !app_assoc. reflexivity.
    - rewrite len_end. lia. }
  destruct F as (q & F & Q). pose proof (U q F) as E. rewrite <- E. apply (cut_early cfg s d q n); try assumption; [|lia].
  intros q' F'. rewrite E. now apply U.
Qed.

Lemma cut_archive cd cfg sched s l n : codec_ok cd -> Forall op_good l ->
  let '(xs, r, w) := run_archive cd sched l in
  let d := w_bytes w in
  let e := len d - len (last_comment l) - 22 in
  r = Ok tt -> len d < 0x10000000000000000 -> (forall q, found_at (le 4 0x06054b50) d q -> q = e) ->
  s_data s = take n d -> nofail (s_sched s) -> n + len (last_comment l) < len d ->
  fst (file cfg s) = if n <? e + 4 then Err UnableToLocateEOCDR else Err (UpstreamReadError UnexpectedEof).
Proof.
  intros K G. pose proof (archive_shape cd sched l (proj1 K) G) as H. destruct (run_archive cd sched l) as [[xs r] w]. cbv zeta.
  intros R L. destruct (H R L) as (its & ms & SH). exact (shape_cut _ _ _ _ _ _ _ _ _ _ _ SH).
Qed.

(** ** The data of an entry cut short *)
(** a decoder that has met the end of its stream does not look at what follows *)
Definition dec_online (cd : codec) : Prop := forall c w out k rest, dec cd c w = (out, Some k) -> dec cd c (w ++ rest) = (out, Some k).
Lemma cut_entry cd s c n l e z missing content : dec_online cd -> dec_within cd ->
  let '(xs, r) := er_reads cd l (er_new s c n) in
  let w := take n (drop (s_pos s) (s_data s)) in
  missing <> [] -> z = w ++ missing -> (c <> Stored -> dec cd c z = (content, Some (len z))) ->
  forall b, fst (er_read_to_end_checked cd e r) = Ok b -> c = Stored /\ delivered xs ++ b = w /\ crc32_spec w = en_crc32 e.
Proof.
  intros ON WI. pose proof (checked_iff cd s c n l e) as H. destruct (er_reads cd l (er_new s c n)) as [xs r]. cbv zeta.
  intros M Z D b R. destruct H as (H1 & _ & _ & _ & H2). apply H1 in R as [R C]. apply H2 in R. unfold decoded in R.
  assert (Q : c = Stored \/ c <> Stored) by (destruct c; auto; right; discriminate).
  destruct Q as [->|Q].
  - injection R as R. rewrite <- R in C. auto.
  - exfalso. specialize (D Q). set (w := take n (drop (s_pos s) (s_data s))) in *.
    assert (X : exists out k, dec cd c w = (out, Some k)).
    { destruct c; try contradiction; destruct (dec cd _ w) as [out [k|]]; try discriminate; now exists out, k. }
    destruct X as (out & k & X). pose proof (WI _ _ _ _ X) as L. apply (ON _ _ _ _ missing) in X. rewrite <- Z in X.
    rewrite D in X. injection X as _ X. rewrite Z, len_app in X.
    destruct missing; [contradiction|]. unfold len in X, L. cbn [length] in X. lia.
Qed.
