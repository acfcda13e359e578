(** Opening an archive looks at its directory and at its end only. *)
From Verif Require Import Base SpecFormat SpecCrc SpecUtf8 SpecArchive SpecRead SpecWrite SpecStrict SpecExact SpecTrouble SpecPad SpecLocality ZString ZDate Headers ExtraField
  Entry IO Locator Reader EntryReader Writer BaseFacts HeadersFacts IOFacts ReaderFacts RoundTrip EntryProofs ReadProofs StrictProofs AcceptProofs ExactProofs TroubleProofs CloseFacts
  Zip64Proofs ArchiveProofs RecognizeProofs RecordFacts PadProofs.
From Verif Require ChainFacts.

Lemma past_same p q a b t : len a = p -> len b = p -> p <= q -> past q (a ++ t) = past q (b ++ t).
Proof. intros A B L. rewrite !past_drop, !drop_app_ge by lia. now rewrite A, B. Qed.
Lemma found_same sig p q a b t : len a = p -> len b = p -> p <= q -> found_at sig (a ++ t) q -> found_at sig (b ++ t) q.
Proof.
  intros A B L (u & v & E & U). exists (b ++ drop p u), v.
  assert (T : t = drop p u ++ sig ++ v).
  { pose proof (f_equal (drop p) E) as X. rewrite drop_app_exact in X by exact A. rewrite X. apply drop_app_le. lia. }
  split; [rewrite <- app_assoc; now f_equal|]. rewrite len_app, len_drop. lia.
Qed.
Lemma says_other a b t x rs : len a = len b -> says (a ++ t) x rs -> looks_behind (len a) (a ++ t) -> says (b ++ t) x rs.
Proof.
  intros LAB S LB. destruct (LB x rs S) as (L1 & L2 & L3 & L4).
  destruct S as [(A & d1 & d2 & n1 & n2 & size & off & cl & rest & N & CM & LO) [R CT]].
  assert (PS : forall q, len a <= q -> past q (b ++ t) = past q (a ++ t)) by (intros q Q; symmetry; now apply (past_same (len a))).
  split; [split|split; [|exact CT]].
  - intros q Q. destruct (N.le_gt_cases (len a) q) as [G|G]; [|lia]. apply A. now apply (found_same _ (len a) q b a).
  - exists d1, d2, n1, n2, size, off, cl, rest. rewrite PS by lia. split; [exact N|]. split; [exact CM|]. destruct (n_locator x) as [lo|].
    + destruct LO as (G & LO). split; [exact G|]. specialize (L2 G). rewrite !PS by lia. exact LO.
    + destruct LO as (LO & REST). split; [|exact REST]. intros G Q. apply (LO G). specialize (L2 G). now apply (found_same _ (len a) _ b a).
  - destruct rs as [|r rs]; [constructor|]. rewrite PS; [exact R|]. now apply L1.
Qed.
Lemma opened_by cfg s d' f x rs : fst (file cfg (cursor d')) = Ok f -> says d' x rs -> says (s_data s) x rs -> len (s_data s) = len d' -> nofail (s_sched s) ->
  fst (file cfg s) = Ok f.
Proof.
  intros F S S' L NF.
  destruct (proj1 (opening_works cfg (cursor d') ltac:(constructor)) (ex_intro _ f F)) as (x1 & rs1 & S1 & (_ & RE & OV) & CAP & GOOD).
  cbn [cursor s_data] in S1, RE. destruct (says_unique _ _ _ _ _ S S1) as [<- <-].
  assert (OP : openable cfg (s_data s)).
  { exists x, rs. split; [exact S'|]. split; [|now split]. split; [exact (proj1 S')|]. split; [rewrite L; exact RE|exact OV]. }
  apply (opening_works cfg s NF) in OP as (f' & F'). rewrite F'. f_equal.
  destruct (file_reads cfg s f' F') as (x2 & rs2 & S2 & R2). destruct (says_unique _ _ _ _ _ S' S2) as [<- <-].
  destruct (file_reads cfg (cursor d') f F) as (x3 & rs3 & S3 & R3). cbn [cursor s_data] in S3. destruct (says_unique _ _ _ _ _ S S3) as [<- <-].
  symmetry. exact (reports_one d' x rs f f' S R3 R2).
Qed.
Lemma front_ignored cfg s f a b t : fst (file cfg (cursor (a ++ t))) = Ok f -> looks_behind (len a) (a ++ t) -> len b = len a ->
  s_data s = b ++ t -> nofail (s_sched s) -> fst (file cfg s) = Ok f.
Proof.
  intros F LB L SD NF. destruct (file_reads cfg (cursor (a ++ t)) f F) as (x & rs & S & _). cbn [cursor s_data] in S.
  apply (opened_by cfg s (a ++ t) f x rs F S); [|rewrite SD, !len_app; lia|exact NF]. rewrite SD. apply (says_other a); [now symmetry|exact S|exact LB].
Qed.

Lemma agree_outside a m m' t q n : len m' = len m -> apart (len a) (len m) q n -> agree_on (a ++ m ++ t) (a ++ m' ++ t) q n.
Proof.
  intros L A i I1 I2. unfold len in L, A. destruct A as [A|A].
  - now rewrite !nth_error_app1 by lia.
  - rewrite !(nth_error_app2 a) by lia. rewrite !nth_error_app2 by lia. f_equal. lia.
Qed.
Lemma patched cd cfg f s a m m' t : fst (file cfg (cursor (a ++ m ++ t))) = Ok f -> looks_behind (len a + len m) (a ++ m ++ t) -> len m' = len m ->
  s_data s = a ++ m' ++ t -> nofail (s_sched s) ->
  fst (file cfg s) = Ok f /\
  forall i e, entry_at f i = Some e -> apart (len a) (len m) (st_file_offset e) 30 ->
    apart (len a) (len m) (data_start (a ++ m ++ t) (st_file_offset e)) (en_compressed_size (st_entry e)) ->
    read_entry cd f i s = read_entry cd f i (cursor (a ++ m ++ t)).
Proof.
  intros F LB L SD NF. split.
  - rewrite app_assoc in F, LB. apply (front_ignored cfg s f (a ++ m) (a ++ m') t F); rewrite ?len_app; [exact LB|lia|now rewrite <- app_assoc|exact NF].
  - intros i e E A1 A2. symmetry. apply (content_region cd f i _ _ e); [constructor|exact NF|exact E| |]; rewrite SD; cbn [cursor s_data]; now apply agree_outside.
Qed.
Lemma written_behind d z body ms c : d = body ++ members ms ++ archive_end z (len ms) (len (members ms)) (len body) c ->
  (is_over (len body) = true -> z = true) -> end_clear z c d -> len d < 0x10000000000000000 -> z = true \/ ms <> [] -> looks_behind (len body) d.
Proof.
  intros D FA EC LD NE x rs S. destruct (written_ending d z body ms c x D FA EC LD (proj1 S)) as (AT & OF & OC & OL & AT2 & _).
  pose proof (members_count ms) as MC. rewrite OF, OL.
  assert (M : z = true \/ 46 <= len (members ms)).
  { destruct NE as [->|NE]; [now left|right]. destruct ms; [easy|]. rewrite len_cons in MC. lia. }
  split; [intros _; lia|]. split; [|split].
  - intros _. destruct M as [->|M]; lia.
  - lia.
  - destruct z; [|exact I]. assert (LL : len d = len body + len (members ms) + len (archive_end true (len ms) (len (members ms)) (len body) c)) by (rewrite D, !len_app; lia).
    assert (98 <= len (archive_end true (len ms) (len (members ms)) (len body) c)).
    { unfold archive_end. rewrite !len_app. change (len (zip64_end _ _ _ _ _ _ _ _ _)) with 56. change (len (zip64_end_locator _ _ _)) with 20. change (len (end_record _ _ _ _ _ _ _)) with 22. lia. }
    rewrite N.mod_small by lia. lia.
Qed.
Lemma shape_front cd cfg s l b xs d z body its ms : codec_ok cd -> shape cd l xs d z body its ms ->
  unambiguous cd cfg l xs z d -> z = true \/ succeeded false xs <> [] -> len b = len body ->
  s_data s = b ++ drop (len body) d -> nofail (s_sched s) ->
  exists f, fst (file cfg (cursor d)) = Ok f /\ fst (file cfg s) = Ok f /\ f_zip64 f = z /\ comment_reads_as (last_comment l) (f_comment f) /\
    Forall2 (fun x st => exists it, leaves cd (fst x) (snd x) it /\ as_written d it st /\ texts_kept it st) (succeeded false xs) (f_entries f).
Proof.
  intros K SH U NE LB SD NF. destruct (ChainFacts.shape_back cd cfg (cursor d) l xs d z body its ms K SH U eq_refl ltac:(constructor)) as (f & F & _ & Z & C & F2 & _).
  pose proof U as (L & TM & SC & EC & MEM).
  destruct (listed_ok _ _ _ _ _ _ _ _ SH TM SC) as [MO LL].
  exists f. split; [exact F|]. split; [|split; [exact Z|split; [exact C|exact F2]]].
  assert (NE' : z = true \/ ms <> []).
  { destruct NE as [NE|NE]; [now left|right]. intros ->. apply NE. apply len_0. rewrite <- LL. destruct z; reflexivity. }
  pose proof (written_behind _ _ _ _ _ (sh_bytes _ _ _ _ _ _ _ _ SH) (fun X => proj1 (sh_far _ _ _ _ _ _ _ _ SH X)) EC L NE') as BH.
  pose proof (sh_bytes _ _ _ _ _ _ _ _ SH) as D.
  set (t := drop (len body) d) in *. assert (D2 : d = body ++ t).
  { unfold t. rewrite D at 2. rewrite drop_app_exact by reflexivity. exact D. }
  rewrite D2 in F, BH. apply (front_ignored cfg s f body b t F BH LB SD NF).
Qed.
Lemma written_front cd cfg sched s l b : codec_ok cd -> Forall op_good l ->
  let '(xs, r, w) := run_archive cd sched l in
  let d := w_bytes w in let body := w_bytes (snd (run_ops cd l (zw_new sched))) in
  r = Ok tt -> unambiguous cd cfg l xs (w_zip64 w) d -> w_zip64 w = true \/ succeeded false xs <> [] -> len b = len body ->
  s_data s = b ++ drop (len body) d -> nofail (s_sched s) ->
  exists f, fst (file cfg (cursor d)) = Ok f /\ fst (file cfg s) = Ok f /\ f_zip64 f = w_zip64 w /\ comment_reads_as (last_comment l) (f_comment f) /\
    Forall2 (fun x st => exists it, leaves cd (fst x) (snd x) it /\ as_written d it st /\ texts_kept it st) (succeeded false xs) (f_entries f).
Proof.
  intros K G. pose proof (archive_shape cd sched l (proj1 K) G) as H. destruct (run_archive cd sched l) as [[xs r] w]. cbv zeta in *.
  intros R U. destruct (H R (proj1 U)) as (its & ms & SH). exact (shape_front _ _ _ _ _ _ _ _ _ _ _ K SH U).
Qed.
