(** What the compression example puts away is brought back by extraction, unless the numbers of the archive spell a signature. *)
From Coq Require Import Permutation.
From Verif Require Import Base BaseFacts SpecFormat SpecUtf8 SpecArchive SpecRead SpecWrite SpecExtract SpecBack SpecOrdinary SpecSpells SpecDirectory Utf8 Utf8Facts ZString ZDate Headers ExtraField
  Entry IO IOFacts ReaderFacts Reader EntryReader Writer Extract ExtractProofs BackProofs AllWork Compress SpecCompress CompressProofs CommentlessProofs.
From Verif Require HistFacts.

Lemma put_names d dir xs : lists (fun x => file_with d dir (fst x) (snd x)) xs ->
  (forall p, a_file d dir p -> exists b, d_read d (path_of dir p) = Some b) -> NoDup (map fst xs) /\ lists (a_file d dir) (map fst xs).
Proof.
  intros [Nx Ix] RD. assert (FW : forall x, In x xs -> file_with d dir (fst x) (snd x)) by (intros x I; now apply Ix).
  assert (NX : forall x y, In x xs -> In y xs -> fst x = fst y -> x = y).
  { intros [p b] [q c] I J E. cbn [fst] in E. subst q. apply FW in I as [_ I]. apply FW in J as [_ J]. cbn [fst snd] in *. congruence. }
  assert (Nf : NoDup (map fst xs)).
  { clear - Nx NX. induction Nx as [|x xs NI Nx IH]; [constructor|]. cbn [map]. constructor.
    - intros I. apply in_map_iff in I as (y & E & I). assert (x = y) by (apply NX; [now left|now right|now symmetry]). now subst y.
    - apply IH. intros a b I J. apply NX; now right. }
  split; [exact Nf|]. split; [exact Nf|]. intro p. rewrite in_map_iff. split.
  - intros (x & <- & I). now destruct (FW x I).
  - intros A. destruct (RD p A) as (b & E). exists (p, b). split; [reflexivity|]. apply Ix. now split.
Qed.
Lemma puts_comment l : last_comment (map put l) = [].
Proof. unfold last_comment. induction l as [|x l IH]; [reflexivity|exact IH]. Qed.

Lemma compress_back cd cfg sched s d fuel args dir n sanitize t out : codec_ok cd -> obliging sched -> honest d -> called_for d args dir -> d_is_dir d dir = true ->
  below_root dir -> orderly d dir n -> (n <= fuel)%nat -> fit_to_extract sanitize d dir ->
  plain_names sanitize -> sanitize [] = [] -> fair out t ->
  exists w, run cd sched d fuel args = (Done tt, Some w) /\
  (len (w_bytes w) < 0x10000000000000000 -> s_data s = w_bytes w -> nofail (s_sched s) ->
   exists ps body records, lists (a_file d dir) ps /\ w_bytes w = body ++ records ++ archive_end (w_zip64 w) (len ps) (len records) (len body) [] /\
   let '(r, h, _) := unzip_file cd cfg sanitize t out s in
   (spelled_by (len ps) (len records) (len body) -> r = Panic PUnwrap /\ h = []) /\
   (~ spelled_by (len ps) (len records) (len body) ->
    (w_zip64 w = false -> forall q, found_at (le 4 0x07064b50) (w_bytes w) q -> q + 42 <> len (w_bytes w)) ->
    no_placeholder cd d dir (w_bytes w) -> len ps * entry_mem_size cfg <= 0x7FFFFFFFFFFFFFFF ->
    r = Ok tt /\ lists (fun y => exists p, file_with d dir p (snd y) /\ fst y = below out p) (filled h) /\ created h = map fst (filled h))).
Proof.
  intros CO OB H CF D B OR LE FN P S0 FR.
  destruct (compress_works cd sched d fuel args dir n (proj1 CO) OB H CF D B OR LE) as (w & R). exists w. split; [exact R|]. intros L D1 NF.
  destruct (compress_gives cd sched d fuel args dir w H CF D B R) as (xs & LX & Ux & RA). destruct LX as [Nx Ix].
  assert (FW : forall x, In x xs -> file_with d dir (fst x) (snd x)) by (intros x I; now apply Ix).
  destruct (put_names d dir xs (conj Nx Ix)) as [Nf LF].
  { intros p A. destruct OR as (_ & _ & _ & FI). destruct (FI _ A) as (b & E & _). now exists b. }
  assert (HA : Forall handy (map put xs)).
  { apply Forall_map, Forall_forall. intros x I. apply FW in I as [A E]. destruct OR as (_ & _ & _ & FI). destruct (FI _ A) as (b & X & X1 & _ & X3).
    rewrite E in X. injection X as <-. now apply put_handy. }
  set (ws := map (fun x => AFile (fst x) (snd x)) xs).
  assert (WO : Forall (fun o => writes_entry o = true /\ o <> OpForceNoZip64) (map put xs)) by (apply Forall_map, Forall_forall; now split).
  assert (FW' : filter writes_entry (map put xs) = map put xs) by (clear; induction xs as [|x xs IH]; [reflexivity|]; cbn [map filter put writes_entry]; now rewrite <- IH at 2).
  assert (AS : Forall2 (asks cd sanitize) (map put xs) ws).
  { unfold ws. clear - FW FN. induction xs as [|x xs IH]; [constructor|]. cbn [map]. constructor; [|apply IH; intros y I; apply FW; now right].
    destruct (FW x ltac:(now left)) as [A _]. pose proof (FN _ A) as PN. eapply asks_file; [reflexivity|now destruct A as (_ & NE & _)|exact PN|reflexivity|]. apply holds_whole. }
  assert (TO : ForallOrdPairs together ws).
  { unfold ws. clear - FW Nf. induction xs as [|x xs IH]; [constructor|]. cbn [map] in *. inversion Nf as [|x' xs' NI Nf']; subst. constructor; [|apply IH; [intros y I; apply FW; now right|exact Nf']].
    apply Forall_map, Forall_forall. intros y I. destruct (FW x ltac:(now left)) as [A _]. destruct (FW y ltac:(now right)) as [A' _].
    assert (NE : fst x <> fst y) by (intros E; apply NI; rewrite E; now apply in_map). cbn [together]. split; apply (files_apart d dir); try assumption. now intros E; apply NE. }
  pose proof (handy_good _ HA) as GO.
  pose proof (told_and_back cd cfg sched s (map put xs) sanitize t out ws CO GO P S0 FR) as TB.
  pose proof (commentless cd cfg sched s (map put xs) CO GO (puts_comment xs)) as CL. rewrite RA in TB, CL. cbv zeta in CL.
  destruct (CL eq_refl L D1 NF) as (body & records & BD & _ & SPL & _). clear CL. rewrite (recorded_ok _ WO false) in *.
  rewrite (succeeded_all _ HA), FW' in TB.
  assert (LN : len (map (fun o => (false, o)) (map put xs)) = len (map fst xs)) by (unfold len; now rewrite !map_length).
  rewrite LN in BD, SPL. exists (map fst xs), body, records. split; [exact LF|]. split; [exact BD|].
  rewrite map_map, map_id in TB. specialize (TB AS TO).
  assert (OPEN : spelled_by (len (map fst xs)) (len records) (len body) -> fst (unzip_file cd cfg sanitize t out s) = (Panic PUnwrap, [])).
  { intro SP. apply SPL in SP. unfold unzip_file, seek_new. destruct (file cfg s) as [fr s']. cbn [fst] in SP. subst fr. reflexivity. }
  destruct (unzip_file cd cfg sanitize t out s) as [[r h] s']. cbn [fst] in OPEN. split; [intro SP; apply OPEN in SP; now injection SP|].
  intros NS NL NP ME. destruct TB as (-> & FI & CR & _).
  - apply Forall_map, Forall_forall. intros x I e E. cbn [put op_entry] in E. injection E as <-. split; [|reflexivity]. rewrite Forall_forall in Ux.
    split; [|split; [|left; now repeat split]]; (split; [intros _|discriminate]); [exact (Ux x I)|]. exists []. now split.
  - apply Forall_map, Forall_map, Forall_forall. intros x I it LV. cbn [fst snd] in LV. apply HistFacts.leaves_no64 in LV. unfold straight, i_swapped. rewrite LV, andb_false_r. discriminate.
  - reflexivity.
  - split; [exact L|]. split; [intros _; apply Forall_map, Forall_forall; reflexivity|].
    rewrite (succeeded_all _ HA), FW', LN. split; [|split; [|exact ME]].
    + destruct NP as [NP|NP]; [now left|]. right. apply Forall_map, Forall_map, Forall_forall. intros x I it LV. cbn [fst snd put] in LV.
      intros _. inversion LV as [e b z o CM| | |]; subst. cbn [i_usize i_csize i_data]. destruct (NP (fst x) (snd x) (FW x I)) as [A1 A2]. split; [exact A1|]. unfold i_csize. cbn [i_data]. apply A2. exact CM.
    + rewrite puts_comment. rewrite app_assoc in BD. pose proof (end_told (w_zip64 w) (len (map fst xs)) (len records) (len body) (body ++ records)) as ET. cbv zeta in ET. rewrite <- BD in ET.
      exact (proj2 ET (conj NS NL)).
  - exact D1.
  - exact NF.
  - split; [reflexivity|].
    assert (FE : filled h = map (fun x => (below out (fst x), snd x)) xs).
    { rewrite FI. unfold ws. clear. induction xs as [|x xs IH]; [reflexivity|]. cbn [map files flat_map app]. f_equal. exact IH. }
    split; [|now rewrite CR, FI]. rewrite FE. split.
    + clear - Nf FW FN. induction xs as [|x xs IH]; [constructor|]. cbn [map] in *. inversion Nf as [|x' xs' NI Nf']; subst. constructor; [|apply IH; [intros y I; apply FW; now right|exact Nf']].
      intros I. apply in_map_iff in I as (y & E & I). apply NI. injection E as E _. unfold below in E. apply app_inv_head in E.
      destruct (FW x ltac:(now left)) as [A _]. destruct (FW y ltac:(now right)) as [A' _].
      rewrite <- (spelled_inj sanitize (fst y) (fst x)); [now apply in_map|now destruct A' as (_ & NE & _)|now destruct A as (_ & NE & _)|now apply FN|now apply FN|exact E].
    + intros [q b]. cbn [fst snd]. rewrite in_map_iff. split.
      * intros ((p & c) & E & I). cbn [fst snd] in E. injection E as <- <-. exists p. split; [exact (FW _ I)|reflexivity].
      * intros (p & A & ->). exists (p, b). split; [reflexivity|]. now apply Ix.
Qed.
(** in a small archive nothing is spelled *)
Lemma small_unspelled n size off : n < 0x4b50 -> size < 0x5000000 -> off < 0x5000000 -> ~ spelled_by n size off.
Proof.
  intros A B C. unfold spelled_by. rewrite !N.min_l by lia. unfold spells. intros [[E _]|[[E _]|[E|[[E _]|[[E _]|[[E _]|E]]]]]].
  - lia.
  - pose proof (N.div_mod n 0x100 ltac:(lia)). pose proof (N.mod_lt n 0x100 ltac:(lia)). lia.
  - lia.
  - pose proof (N.div_mod size 0x100 ltac:(lia)). pose proof (N.mod_lt size 0x100 ltac:(lia)). lia.
  - pose proof (N.div_mod size 0x10000 ltac:(lia)). pose proof (N.mod_lt size 0x10000 ltac:(lia)). lia.
  - pose proof (N.div_mod size 0x1000000 ltac:(lia)). pose proof (N.mod_lt size 0x1000000 ltac:(lia)). lia.
  - lia.
Qed.
