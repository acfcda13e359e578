(** Proofs behind the properties of opening and reading archives. *)
From Verif Require Import Base BaseFacts SpecFormat SpecCrc SpecUtf8 SpecArchive SpecRead Crc32 CrcFacts Utf8 Utf8Facts ZString ZDate
  Headers HeadersFacts ExtraField ExtraFieldFacts Entry EntryFacts IO IOFacts Locator LocatorFacts Reader ReaderFacts OpenFacts TameFacts LfhFacts
  EntryReader EntryReaderFacts StreamReader EntryProofs LeafProofs Samples.
Arguments N.add : simpl never.
Arguments N.sub : simpl never.
Arguments N.min : simpl never.
Arguments N.mul : simpl never.

(** ** C14 *)
Lemma locate_pos d p p' : locate d p = locate d p'. Proof. reflexivity. Qed.
Lemma locate_any s : nofail (s_sched s) -> fst (eocdr_locate s) = locate (s_data s) 0.
Proof.
  intro N. destruct (agrees_any eocdr_locate s insens_locate N) as (q & E & _). rewrite E. reflexivity.
Qed.
Lemma located s : nofail (s_sched s) ->
  (forall q, fst (eocdr_locate s) = Ok q -> 4 <= q /\ found_at (le 4 0x06054b50) (s_data s) (q - 4) /\
     forall p, found_at (le 4 0x06054b50) (s_data s) p -> p <= q - 4) /\
  (forall p, found_at (le 4 0x06054b50) (s_data s) p -> len (s_data s) <= p + 65557 -> exists q, fst (eocdr_locate s) = Ok q) /\
  ((forall p, found_at (le 4 0x06054b50) (s_data s) p -> p + 65557 + 2044 < len (s_data s)) ->
     fst (eocdr_locate s) = Err UnableToLocateEOCDR) /\
  ((exists q, fst (eocdr_locate s) = Ok q) \/ fst (eocdr_locate s) = Err UnableToLocateEOCDR).
Proof.
  intro N. rewrite locate_any by easy. set (d := s_data s).
  change (found_at (le 4 0x06054b50) d) with (occurs EOCDR_SIG d).
  destruct (locate_spec d 0) as [(q & E & L4 & O & Mx)|(E & Hno)]; rewrite E.
  - split; [|split; [|split]].
    + intros q' H. injection H as <-. auto.
    + eauto.
    + intro H. exfalso. specialize (H _ O). apply locate_low in E. lia.
    + eauto.
  - split; [discriminate|]. split; [|split; auto].
    intros p Hp L. specialize (Hno p Hp). lia.
Qed.
Lemma located_faults s : fst (eocdr_locate s) = fst (eocdr_locate (cursor (s_data s))) \/
  exists c, In (RFail c) (s_sched s) /\ fst (eocdr_locate s) = Err (UpstreamReadError (IoOther c)).
Proof.
  pose proof (insens_locate s) as I. unfold agrees in I.
  change (fst (eocdr_locate (cursor (s_data s)))) with (fst (eocdr_locate (calm s))).
  destruct (eocdr_locate s) as [r s'], (eocdr_locate (calm s)) as [r0 s0].
  destruct I as (_ & _ & _ & u & Hu & [(_ & -> & _)|(pre & c & -> & _ & ->)]); [now left|right].
  exists c. split; [|reflexivity]. rewrite Hu. apply in_or_app; left. apply in_or_app; right. now left.
Qed.

(** ** C26 *)
Lemma insens_faults {A} (m : SM source A) s : insens m ->
  fst (m s) = fst (m (calm s)) \/ exists c, In (RFail c) (s_sched s) /\ fst (m s) = Err (UpstreamReadError (IoOther c)).
Proof.
  intro I. specialize (I s). unfold agrees in I. destruct (m s) as [r s'], (m (calm s)) as [r0 s0].
  destruct I as (_ & _ & _ & u & Hu & [(_ & -> & _)|(pre & c & -> & _ & ->)]); [now left|right].
  exists c. split; [|reflexivity]. rewrite Hu. apply in_or_app; left. apply in_or_app; right. now left.
Qed.
Lemma file_faults cfg s : fst (file cfg s) = fst (file cfg (cursor (s_data s))) \/
  exists c, In (RFail c) (s_sched s) /\ fst (file cfg s) = Err (UpstreamReadError (IoOther c)).
Proof. exact (insens_faults (file cfg) s (insens_file cfg)). Qed.
Lemma file_nofail cfg s : nofail (s_sched s) -> fst (file cfg s) = fst (file cfg (cursor (s_data s))).
Proof. intro N. rewrite file_any_schedule by easy. reflexivity. Qed.

Lemma read_to_end_faults cd e s c n :
  fst (er_read_to_end_checked cd e (er_new s c n)) = fst (er_read_to_end_checked cd e (er_new (calm s) c n)) \/
  exists k, In (RFail k) (s_sched s) /\ fst (er_read_to_end_checked cd e (er_new s c n)) = Err (UpstreamReadError (IoOther k)).
Proof.
  rewrite (checked_new cd e (calm s) c n) by constructor. rewrite er_read_to_end_checked_spec.
  cbn [calm src s_pos s_data]. rewrite <- content_new.
  pose proof (er_read_to_end_spec cd (er_new s c n)) as H. destruct (er_read_to_end cd (er_new s c n)) as [x r]. destruct H as (u & Hu & H).
  cbn [er_src er_new] in Hu. destruct x as [b|x|p]; [| |easy].
  - left. destruct H as (C & _). rewrite C.
    change (hasher_finalize (hasher_update (er_hash (er_new s c n)) b)) with (crc32 b). now rewrite crc32_is_spec.
  - destruct x as [| | | | | | | | | | | | |i| | | | |]; try easy. destruct H as [(-> & C & _)|(k & pre & b & -> & -> & _)].
    + left. destruct (content cd (er_new s c n)) as [b ok]. cbn [snd] in C. now subst ok.
    + right. exists k. split; [|reflexivity]. rewrite Hu. apply in_or_app; left. apply in_or_app; right. now left.
Qed.
Lemma read_entry_faults cd f i s : read_entry cd f i s = read_entry cd f i (cursor (s_data s)) \/
  exists c, In (RFail c) (s_sched s) /\ read_entry cd f i s = Err (UpstreamReadError (IoOther c)).
Proof.
  unfold read_entry, seek_reader_at. destruct (entry_at f i) as [e|]; [|now left].
  change (seek_to_data_offset e ;;; (s0 <- get ;; ret (er_new s0 (en_compression (st_entry e)) (en_compressed_size (st_entry e)), e)))
    with (bind (seek_to_data_offset e) (fun _ => s0 <- get ;; ret (er_new s0 (en_compression (st_entry e)) (en_compressed_size (st_entry e)), e))).
  unfold bind. assert (I : insens (seek_to_data_offset e)) by auto with insens.
  change (seek_to_data_offset e (cursor (s_data s))) with (seek_to_data_offset e (calm s)).
  specialize (I s). unfold agrees in I. destruct (seek_to_data_offset e s) as [r s'], (seek_to_data_offset e (calm s)) as [r0 s0].
  destruct I as (_ & _ & _ & u & Hu & [(_ & -> & C)|(pre & c & -> & _ & ->)]).
  - destruct r0 as [[]|x|p]; [|now left|now left]. cbn [get ret fst snd]. subst s0.
    destruct (read_to_end_faults cd (st_entry e) s' (en_compression (st_entry e)) (en_compressed_size (st_entry e))) as [E|(k & K & E)];
      [now left|right]. exists k. split; [|exact E]. rewrite Hu. apply in_or_app. now right.
  - right. exists c. split; [|reflexivity]. rewrite Hu. apply in_or_app; left. apply in_or_app; right. now left.
Qed.

(** ** C27 *)
Lemma region_take d e : region d e = take (en_compressed_size (st_entry e)) (drop (data_start d (st_file_offset e)) d).
Proof. unfold region. now rewrite take_firstn, drop_skipn. Qed.
Lemma has_header_offset d e : has_local_header d e ->
  data_offset (st_file_offset e) (take 30 (drop (st_file_offset e) d)) = Ok (data_start d (st_file_offset e)).
Proof.
  intros ((a & b & E & L) & L30 & Lm).
  assert (L' : len (take 30 (drop (st_file_offset e) d)) = 30) by (rewrite len_take, len_drop; lia).
  unfold data_offset. rewrite L'. change (30 <? 4) with false. change (30 <? 30) with false. cbv iota.
  assert (S : from_le (take 4 (take 30 (drop (st_file_offset e) d))) = LFH_SIGNATURE).
  { rewrite take_take. change (N.min 4 30) with 4. rewrite E, drop_app_exact by easy.
    rewrite take_app_exact by reflexivity. reflexivity. }
  rewrite S, N.eqb_refl. cbn [negb]. rewrite header_lengths by easy. cbv zeta.
  now replace (_ <=? u64_max) with true by lia.
Qed.
Lemma read_result_checked cd d e : has_local_header d e -> read_result cd e d = checked_content cd d e.
Proof.
  intro H. unfold read_result. rewrite (has_header_offset d e H). cbn [rbind]. rewrite <- region_take.
  unfold checked_content. destruct (decoded cd _ _) as [b []]; reflexivity.
Qed.
Lemma read_entry_content cd f i s e : nofail (s_sched s) -> entry_at f i = Some e -> has_local_header (s_data s) e ->
  read_entry cd f i s = checked_content cd (s_data s) e.
Proof. intros N E H. rewrite read_entry_closed by easy. rewrite E. now apply read_result_checked. Qed.
Lemma mem_read_entry_content cd m i e : entry_at (m_file m) i = Some e -> has_local_header (m_data m) e ->
  mem_read_entry cd m i = checked_content cd (m_data m) e.
Proof. intros E H. rewrite mem_read_entry_closed, E. now apply read_result_checked. Qed.
Lemma content_region cd f i s1 s2 e : nofail (s_sched s1) -> nofail (s_sched s2) -> entry_at f i = Some e ->
  agree_on (s_data s1) (s_data s2) (st_file_offset e) 30 ->
  agree_on (s_data s1) (s_data s2) (data_start (s_data s1) (st_file_offset e)) (en_compressed_size (st_entry e)) ->
  read_entry cd f i s1 = read_entry cd f i s2.
Proof. intros N1 N2 E A1 A2. rewrite !read_entry_closed by easy. rewrite E. now apply read_result_region. Qed.

(** how far the source is ever advanced *)
Definition bound (r : ereader) : N := s_pos (er_src r) + er_limit r.
Lemma poll_bound cd n r : dec_within cd -> bound (snd (er_poll_read cd n r)) = bound r.
Proof.
  intro D. unfold er_poll_read, inner_poll_read, bound.
  destruct (compression_eqb (er_comp r) Stored) eqn:Ec.
  - assert (Hc : er_comp r = Stored) by (now destruct (er_comp r)). rewrite Hc.
    destruct (er_limit r =? 0) eqn:El; [reflexivity|]. unfold poll_read.
    assert (T : forall k, k <= er_limit r -> len (take k (drop (s_pos (er_src r)) (s_data (er_src r)))) <= er_limit r).
    { intros k Hk. rewrite len_take. lia. }
    destruct (s_sched (er_src r)) as [|[|k|c] q]; cbn [snd set_hash er_src s_pos er_limit]; try lia.
    + specialize (T (N.min n (er_limit r)) ltac:(lia)). lia.
    + specialize (T (N.min (N.min n (er_limit r)) (k + 1)) ltac:(lia)). lia.
  - assert (W : len (er_window r) <= er_limit r) by (unfold er_window; rewrite len_take; lia).
    destruct (er_comp r); try discriminate; (destruct ((n =? 0) || er_fin r); [reflexivity|]);
    match goal with |- context[dec cd ?c ?w] => pose proof (D c w) as D0; destruct (dec cd c w) as [out [k|]] end;
    destruct (s_sched (er_src r)) as [|[|j|c] q]; cbn [snd set_hash er_src s_pos er_limit with_sched set_pos]; try lia;
    destruct (len _ =? 0); cbn [snd set_hash er_src s_pos er_limit with_sched set_pos]; try lia; specialize (D0 _ _ eq_refl); lia.
Qed.
Lemma read_bound cd n : dec_within cd -> forall r, bound (snd (er_read cd n r)) = bound r.
Proof.
  intros D r. unfold er_read. generalize (S (length (s_sched (er_src r)))) as f. intro f. revert r.
  induction f as [|f IH]; intro r; [reflexivity|]. cbn [er_read_poll]. pose proof (poll_bound cd n r D) as P.
  destruct (er_poll_read cd n r) as [[|b|e] r1]; cbn [snd] in *; [rewrite IH|..]; assumption.
Qed.
Lemma reads_bound cd l : dec_within cd -> forall r, bound (snd (er_reads cd l r)) = bound r.
Proof.
  intro D. induction l as [|n l IH]; intro r; [reflexivity|]. cbn [er_reads]. pose proof (read_bound cd n D r) as R.
  destruct (er_read cd n r) as [x r1]. specialize (IH r1). destruct (er_reads cd l r1) as [xs r2]. cbn [snd] in *. congruence.
Qed.
Lemma consumed_at_most cd f i s l e : dec_within cd -> entry_at f i = Some e ->
  forall r s1, seek_reader_at f i s = (Ok (r, e), s1) ->
  s_pos (er_src (snd (er_reads cd l r))) <= s_pos s1 + en_compressed_size (st_entry e).
Proof.
  intros D E r s1 H. unfold seek_reader_at in H. rewrite E in H. apply bind_inv in H as (u & s2 & _ & H).
  unfold bind, get, ret in H. injection H as <- ->.
  pose proof (reads_bound cd l D (er_new s1 (en_compression (st_entry e)) (en_compressed_size (st_entry e)))) as B.
  unfold bound in B. cbn [er_new er_src er_limit] in B. lia.
Qed.

(** ** C30 *)
Lemma mem_reader_inv m i r e : mem_reader_at m i = Ok (r, e) ->
  entry_at (m_file m) i = Some e /\ r = er_new (src (m_data m) (data_start (m_data m) (st_file_offset e))) (en_compression (st_entry e)) (en_compressed_size (st_entry e)).
Proof.
  unfold mem_reader_at. destruct (entry_at (m_file m) i) as [e0|]; [|discriminate].
  destruct (seek_closed e0 (m_data m) 0) as (p & E & Hp). change (src (m_data m) 0) with (cursor (m_data m)) in E. rewrite E.
  destruct (data_offset _ _) as [q|x|pn] eqn:Ed; cbn [as_unit]; try discriminate.
  intro H. injection H as <- <-. split; [reflexivity|]. rewrite (Hp q eq_refl). now rewrite (data_offset_spec _ _ _ Ed).
Qed.
Lemma interleaved cd m ops rs k i r e : nth_error rs k = Some r -> mem_reader_at m i = Ok (r, e) ->
  let '(xs, rs') := interleave cd ops rs in
  prefix (delivered (own_results k xs)) (fst (decoded cd (en_compression (st_entry e)) (region (m_data m) e))) /\ exists r', nth_error rs' k = Some r' /\ forall n, 0 < n -> fst (er_read cd n r') = Ok [] ->
      decoded cd (en_compression (st_entry e)) (region (m_data m) e) = (delivered (own_results k xs), true).
Proof.
  intros Hk Hm. apply mem_reader_inv in Hm as [_ Hr]. pose proof (interleave_own cd ops rs k r Hk) as H.
  destruct (interleave cd ops rs) as [xs rs']. destruct H as (H & r' & Hr').
  rewrite Hr' in H. rewrite Hr in H. rewrite region_take.
  pose proof (reads_prefix cd (own k ops) (src (m_data m) (data_start (m_data m) (st_file_offset e))) (en_compression (st_entry e))
    (en_compressed_size (st_entry e))) as P.
  rewrite H in P. cbn [s_pos s_data src] in P. destruct P as [P1 P2]. split; [exact P1|]. exists r'. split; [exact Hr'|]. exact P2.
Qed.

(** ** C29 *)
Lemma corruption cd f i e pre post a m m' z :
  entry_at f i = Some e ->
  en_compression (st_entry e) = Stored -> len (a ++ m ++ z) = en_compressed_size (st_entry e) ->
  data_start (pre ++ (a ++ m ++ z) ++ post) (st_file_offset e) = len pre -> st_file_offset e + 30 <= len pre ->
  length m = length m' -> (length m <= 4)%nat -> m <> m' ->
  forall s s', s_data s = pre ++ (a ++ m ++ z) ++ post -> s_data s' = pre ++ (a ++ m' ++ z) ++ post ->
  nofail (s_sched s) -> nofail (s_sched s') ->
  read_entry cd f i s = Ok (a ++ m ++ z) -> read_entry cd f i s' = Err CRC32CheckError.
Proof.
  intros E Hc Hl Hd Ho L L4 Hne s s' Es Es' N N'. rewrite !read_entry_closed by easy. rewrite E, Es, Es'.
  intro H. now apply (corrupt_detected cd e pre post a m m' z).
Qed.

(** ** C10 *)
Lemma lfh_read_sound cfg s e : fst (lfh_read cfg s) = Ok (Some e) -> zs_sound (en_filename e) /\ zs_sound (en_comment e).
Proof.
  intro H. destruct (insens_faults (lfh_read cfg) s ltac:(auto with insens)) as [E|(c & _ & E)]; [|congruence].
  rewrite H in E. clear H. symmetry in E. unfold calm in E. destruct (lfh_read cfg _) as [r s'] eqn:R. cbn [fst] in E. subst r.
  unfold lfh_read in R. apply bind_inv in R as (b & s1 & _ & R). cbv zeta in R.
  destruct (_ =? CDH_SIGNATURE); [discriminate|]. destruct (negb _); [discriminate|].
  apply bind_inv in R as (h & s2 & _ & R). apply bind_inv in R as (nm & s3 & _ & R). apply bind_inv in R as (c & s4 & _ & R).
  apply bind_inv in R as (xb & s5 & _ & R). apply bind_inv in R as (xs & s6 & _ & R).
  destruct (get_combined_sizes _ _ _) as [us cs]. destruct (_ && _); [discriminate|]. destruct (gp_encrypted _); [discriminate|].
  apply ret_inv in R as [R _]. injection R as <-. cbn [en_filename en_comment]. split.
  - eapply reads_as_sound, detect_filename_spec.
  - intros _. exists []. split; [constructor|reflexivity].
Qed.
Lemma sound_str z : zs_sound z ->
  (forall b, zs_as_str z = Ok b -> is_utf8 b) /\ (forall b, zs_into_string z = Ok b -> is_utf8 b) /\ (zs_enc z = ERaw -> zs_as_str z = Err StringNotUtf8 /\ zs_into_string z = Err StringNotUtf8).
Proof.
  intro S. unfold zs_as_str, zs_into_string, zs_sound in *. destruct (zs_enc z); (split; [|split]); try easy.
  - intros b H. injection H as <-. now apply S.
  - intros b H. injection H as <-. now apply S.
Qed.

(** ** C36 *)
Lemma classic_directory cfg s before disk cd_disk n1 n2 cd_size off comment tail :
  s_data s = before ++ end_record disk cd_disk n1 n2 cd_size off (len comment) ++ comment ++ tail ->
  disk < 0x10000 -> cd_disk < 0x10000 -> n1 < 0x10000 -> n2 < 0x10000 -> cd_size < 0x100000000 -> off < 0x100000000 ->
  len comment + len tail <= 65535 ->
  (forall q, found_at (le 4 0x06054b50) (s_data s) q -> q <= len before) ->
  (forall q, found_at (le 4 0x07064b50) (s_data s) q -> q + 20 <> len before) ->
  nofail (s_sched s) ->
  fst (file cfg s) = fst (directory cfg (combined_from
    {| e_disk_num := disk; e_start_cent_dir_disk := cd_disk; e_num_of_entries_disk := n1; e_num_of_entries := n2;
       e_size_cent_dir := cd_size; e_cent_dir_offset := off; e_file_comm_length := len comment |})
    false (zs_new comment EUtf8) (src (s_data s) 0)).
Proof.
  intros E H1 H2 H3 H4 H5 H6 Hc Hlast Hno N. rewrite file_any_schedule by easy.
  destruct (locate_end (s_data s) (s_pos s) before disk cd_disk n1 n2 cd_size off (len comment) comment tail E Hlast Hc) as [L D].
  assert (Hf : eocdr_from (end_body disk cd_disk n1 n2 cd_size off (len comment)) =
    {| e_disk_num := disk; e_start_cent_dir_disk := cd_disk; e_num_of_entries_disk := n1; e_num_of_entries := n2;
       e_size_cent_dir := cd_size; e_cent_dir_offset := off; e_file_comm_length := len comment |}).
  { apply end_body_from; try assumption. lia. }
  rewrite (file_classic cfg (s_data s) (s_pos s) _ _ comment tail L D).
  - now rewrite Hf.
  - unfold end_body. apply len_eocdr.
  - now rewrite Hf.
  - intros Hq O. apply (Hno (len before + 4 - 24)); [exact O|lia].
Qed.
Lemma split_classic cfg s before disk cd_disk n1 n2 cd_size off comment tail :
  s_data s = before ++ end_record disk cd_disk n1 n2 cd_size off (len comment) ++ comment ++ tail ->
  disk < 0x10000 -> cd_disk < 0x10000 -> n1 < 0x10000 -> n2 < 0x10000 -> cd_size < 0x100000000 -> off < 0x100000000 ->
  len comment + len tail <= 65535 ->
  (forall q, found_at (le 4 0x06054b50) (s_data s) q -> q <= len before) ->
  (forall q, found_at (le 4 0x07064b50) (s_data s) q -> q + 20 <> len before) ->
  nofail (s_sched s) ->
  disk <> cd_disk \/ n1 <> n2 -> fst (file cfg s) = Err (FeatureNotSupported FSplit).
Proof.
  intros. rewrite (classic_directory cfg s before disk cd_disk n1 n2 cd_size off comment tail) by assumption.
  unfold directory. cbn [combined_from cb_disk_number cb_disk_number_start_of_cd cb_num_entries cb_num_entries_on_disk
    e_disk_num e_start_cent_dir_disk e_num_of_entries e_num_of_entries_disk].
  replace (negb (disk =? cd_disk) || negb (n2 =? n1)) with true by lia. reflexivity.
Qed.
Lemma split_zip64 cfg s before between comment tail size made_by needed zdisk zcd zn1 zn2 zsize zoff ldisk ldisks
    disk cd_disk n1 n2 cd_size off :
  s_data s = before ++ zip64_end size made_by needed zdisk zcd zn1 zn2 zsize zoff ++ between ++
             zip64_end_locator ldisk (len before) ldisks ++
             end_record disk cd_disk n1 n2 cd_size off (len comment) ++ comment ++ tail ->
  size < 0x10000000000000000 -> made_by < 0x10000 -> needed < 0x10000 -> zdisk < 0x100000000 -> zcd < 0x100000000 ->
  zn1 < 0x10000000000000000 -> zn2 < 0x10000000000000000 -> zsize < 0x10000000000000000 -> zoff < 0x10000000000000000 ->
  ldisk < 0x100000000 -> ldisks < 0x100000000 -> len (s_data s) < 0x10000000000000000 ->
  disk < 0x10000 -> cd_disk < 0x10000 -> n1 < 0x10000 -> n2 < 0x10000 -> cd_size < 0x100000000 -> off < 0x100000000 ->
  len comment + len tail <= 65535 ->
  (forall q, found_at (le 4 0x06054b50) (s_data s) q -> q + 22 + len comment + len tail <= len (s_data s)) ->
  nofail (s_sched s) ->
  chosen 0xFFFF disk zdisk <> chosen 0xFFFF cd_disk zcd \/ chosen 0xFFFF n1 zn1 <> chosen 0xFFFF n2 zn2 ->
  fst (file cfg s) = Err (FeatureNotSupported FSplit).
Proof.
  intros. rewrite (open_zip64_directory cfg s before between comment tail size made_by needed zdisk zcd zn1 zn2
    zsize zoff ldisk ldisks disk cd_disk n1 n2 cd_size off); try assumption.
  - unfold directory.
    cbn [combine combined_from cb_disk_number cb_disk_number_start_of_cd cb_num_entries cb_num_entries_on_disk cb_offset
      e_disk_num e_start_cent_dir_disk e_num_of_entries_disk e_num_of_entries e_cent_dir_offset zip64_body
      z_disk_number z_disk_number_start_of_cd z_num_entries z_num_entries_on_disk z_offset].
    unfold chosen in *. change 0xFFFF with 65535 in *.
    match goal with |- context[negb ?a || negb ?b] => replace (negb a || negb b) with true by lia end. reflexivity.
  - repeat split; cbn [zip64_body z_size z_version_made_by z_version_needed z_disk_number z_disk_number_start_of_cd
      z_num_entries_on_disk z_num_entries z_directory_size z_offset]; assumption.
Qed.

(** a central directory that does not start with its signature *)
Lemma assert_signature_wrong expected sg d p y : sg < 4294967296 -> sg <> expected -> drop p d = to_le 4 sg ++ y ->
  assert_signature expected (src d p) = (Err (UnexpectedHeaderError sg expected), src d (p + 4)).
Proof.
  intros B H E. unfold assert_signature. rewrite (bind_ok _ _ _ _ _ (read_exact_here 4 d p _ _ E (len_to_le 4 _))).
  rewrite from_to_le4 by easy. cbv zeta. apply N.eqb_neq in H. now rewrite H.
Qed.
Lemma wrong_directory cfg s before disk n cd_size off comment tail sg y :
  s_data s = before ++ end_record disk disk n n cd_size off (len comment) ++ comment ++ tail ->
  disk < 0x10000 -> 0 < n -> n < 0x10000 -> cd_size < 0x100000000 -> off < 0x100000000 ->
  len comment + len tail <= 65535 ->
  (forall q, found_at (le 4 0x06054b50) (s_data s) q -> q <= len before) ->
  (forall q, found_at (le 4 0x07064b50) (s_data s) q -> q + 20 <> len before) ->
  nofail (s_sched s) -> n * entry_mem_size cfg <= isize_max ->
  drop off (s_data s) = le 4 sg ++ y -> sg < 0x100000000 -> sg <> 0x02014b50 ->
  fst (file cfg s) = Err (UnexpectedHeaderError sg 0x02014b50).
Proof.
  intros E H1 H2 H3 H4 H5 Hc Hl Hno N Hm D B Hs.
  rewrite (classic_directory cfg s before disk disk n n cd_size off comment tail) by assumption.
  unfold directory. cbn [combined_from cb_disk_number cb_disk_number_start_of_cd cb_num_entries cb_num_entries_on_disk cb_offset
    e_disk_num e_start_cent_dir_disk e_num_of_entries e_num_of_entries_disk e_cent_dir_offset].
  rewrite !N.eqb_refl. cbn [negb orb]. rewrite (bind_ok _ _ _ _ _ (seek_start_src _ _ 0)).
  rewrite le_to_le in D.
  assert (C : cd cfg n (src (s_data s) off) = (Err (UnexpectedHeaderError sg CDH_SIGNATURE), src (s_data s) (off + 4))).
  { unfold cd, with_capacity. replace (_ <=? isize_max) with true by lia. unfold bind at 1, lift. unfold bind at 1, get. cbn [s_data src cd_loop].
    replace (n =? 0) with false by lia. apply bind_err. unfold cd_record. apply bind_err. eapply assert_signature_wrong; eauto. }
  now rewrite (bind_err _ _ _ _ _ C).
Qed.
Lemma wrong_local f i e s sg y : entry_at f i = Some e -> nofail (s_sched s) ->
  drop (st_file_offset e) (s_data s) = le 4 sg ++ y -> sg < 0x100000000 -> sg <> 0x04034b50 ->
  fst (seek_reader_at f i s) = Err (UnexpectedHeaderError sg 0x04034b50).
Proof.
  intros E N D B H. unfold seek_reader_at. rewrite E. rewrite le_to_le in D.
  destruct (agrees_any (seek_to_data_offset e) s ltac:(auto with insens) N) as (q & Eq & _).
  pose proof (seek_to_data_offset_wrong e (s_data s) (s_pos s) sg y B H D) as W. fold (calm s) in W. rewrite W in Eq.
  now rewrite (bind_err _ _ _ _ _ Eq).
Qed.

(** *** the stream reader *)
Lemma stream_next_fst cfg s : nofail (s_sched s) ->
  (exists x, fst (stream_next cfg s) = Ok x) <-> (exists x, fst (lfh_read cfg (calm s)) = Ok x).
Proof.
  intro N. unfold stream_next. destruct (agrees_any (lfh_read cfg) s ltac:(auto with insens) N) as (q & Eq & _). rewrite Eq.
  destruct (fst (lfh_read cfg (calm s))) as [[x|]|e|p]; cbn [fst]; split; intros [y H]; eauto; discriminate.
Qed.
Lemma stream_next_err cfg s e : nofail (s_sched s) -> fst (lfh_read cfg (calm s)) = Err e -> fst (stream_next cfg s) = Err e.
Proof.
  intros N H. unfold stream_next. destruct (agrees_any (lfh_read cfg) s ltac:(auto with insens) N) as (q & Eq & _). now rewrite Eq, H.
Qed.
Lemma wrong_stream cfg s sg y : nofail (s_sched s) -> drop (s_pos s) (s_data s) = le 4 sg ++ y ->
  sg < 0x100000000 -> sg <> 0x04034b50 -> sg <> 0x02014b50 ->
  fst (stream_next cfg s) = Err (UnexpectedHeaderError sg 0x04034b50).
Proof.
  intros N D B H1 H2. apply stream_next_err; [easy|]. rewrite le_to_le in D. unfold calm.
  now rewrite (lfh_read_wrong cfg (s_data s) (s_pos s) sg y B H2 H1 D).
Qed.

(** the header a reader parses from the format's image of it *)
Lemma local_header_from v fl m t dt crc cs us nl xl :
  v < 65536 -> fl < 65536 -> m < 65536 -> t < 65536 -> dt < 65536 -> crc < 4294967296 -> cs < 4294967296 ->
  us < 4294967296 -> nl < 65536 -> xl < 65536 ->
  exists hb, local_header v fl m t dt crc cs us nl xl = to_le 4 LFH_SIGNATURE ++ hb /\ len hb = 26 /\
  lfh_from hb = {| l_version := v; l_flags := gp_from fl; l_compression := m; l_mod_time := t; l_mod_date := dt;
    l_crc := crc; l_compressed_size := cs; l_uncompressed_size := us; l_file_name_length := nl; l_extra_field_length := xl |}.
Proof.
  intros. eexists. split; [|split; [|apply lfh_from_fields; assumption]].
  - unfold local_header, record. cbn [map concat fst snd]. rewrite !le_to_le. reflexivity.
  - reflexivity.
Qed.
Lemma parse_plain cfg us cs xs : Forall plain_field xs -> len (spec_extras xs) < 0x10000 ->
  parse_extra_fields cfg (spec_extras xs) us cs = Ok (heard xs).
Proof.
  intros F L. rewrite spec_extras_eq in *. rewrite heard_eq. apply parse_fields_image_any.
  - eapply Forall_impl; [|exact F]. intros x Hx. now apply plain_field_wt.
  - eapply Forall_impl; [|exact F]. intros x Hx. now apply plain_consistent.
  - rewrite Forall_forall. intros x Hx. pose proof (len_image_field xs x Hx). lia.
Qed.
Lemma stream_refuses cfg s v fl m t dt crc cs us name xs y :
  nofail (s_sched s) -> drop (s_pos s) (s_data s) =
    local_header v fl m t dt crc cs us (len name) (len (spec_extras xs)) ++ name ++ spec_extras xs ++ y ->
  v < 0x10000 -> fl < 0x10000 -> m < 0x10000 -> t < 0x10000 -> dt < 0x10000 -> crc < 0x100000000 -> cs < 0x100000000 ->
  us < 0x100000000 -> len name < 0x10000 -> len (spec_extras xs) < 0x10000 -> Forall plain_field xs ->
  (N.testbit fl 3 = true -> m = 0 -> fst (stream_next cfg s) = Err (FeatureNotSupported FStreamStored)) /\
  (N.testbit fl 0 = true -> In m [0; 8; 9; 12; 14; 93; 95] -> ~ (N.testbit fl 3 = true /\ m = 0) ->
     fst (stream_next cfg s) = Err (FeatureNotSupported FEncryption)).
Proof.
  intros N D Hv Hfl Hm Ht Hdt Hcrc Hcs Hus Hn Hx F.
  destruct (local_header_from v fl m t dt crc cs us (len name) (len (spec_extras xs)))
    as (hb & Eh & Lh & Hh); try assumption.
  rewrite Eh, <- app_assoc in D.
  destruct (lfh_read_here cfg (s_data s) (s_pos s) hb name (spec_extras xs) y D Lh) as (p' & R & _);
    [now rewrite Hh|now rewrite Hh|].
  assert (G : forall e, lfh_view cfg (lfh_from hb) name (spec_extras xs) = Err e -> fst (stream_next cfg s) = Err e).
  { intros e H. apply stream_next_err; [easy|]. unfold calm. now rewrite R, H. }
  rewrite Hh in G. unfold lfh_view in G.
  cbn [l_compression l_uncompressed_size l_compressed_size l_flags] in G. rewrite parse_plain in G by easy.
  destruct (flags_decode fl) as (F0 & F3 & _). rewrite F0, F3 in G. split.
  - intros B3 ->. apply G. rewrite B3. reflexivity.
  - intros B0 I NB. apply G. rewrite B0.
    destruct (N.testbit fl 3); cbn [In] in I;
      repeat (destruct I as [<-|I]; [try reflexivity; exfalso; apply NB; split; reflexivity|]); destruct I.
Qed.
Lemma stream_encrypted cfg s v fl m t dt crc cs us name x y :
  nofail (s_sched s) -> drop (s_pos s) (s_data s) =
    local_header v fl m t dt crc cs us (len name) (len x) ++ name ++ x ++ y ->
  v < 0x10000 -> fl < 0x10000 -> m < 0x10000 -> t < 0x10000 -> dt < 0x10000 -> crc < 0x100000000 -> cs < 0x100000000 ->
  us < 0x100000000 -> len name < 0x10000 -> len x < 0x10000 ->
  N.testbit fl 0 = true -> forall r, fst (stream_next cfg s) <> Ok r.
Proof.
  intros N D Hv Hfl Hm Ht Hdt Hcrc Hcs Hus Hn Hx B0 r Hr.
  destruct (local_header_from v fl m t dt crc cs us (len name) (len x))
    as (hb & Eh & Lh & Hh); try assumption.
  rewrite Eh, <- app_assoc in D.
  destruct (lfh_read_here cfg (s_data s) (s_pos s) hb name x y D Lh) as (p' & R & _);
    [now rewrite Hh|now rewrite Hh|].
  destruct (proj1 (stream_next_fst cfg s N) (ex_intro _ r Hr)) as [z Hz]. unfold calm in Hz. rewrite R in Hz. cbn [fst] in Hz.
  unfold lfh_view in Hz. apply rbind_ok in Hz as (c & _ & Hz). apply rbind_ok in Hz as (xs & _ & Hz).
  destruct (flags_decode fl) as (F0 & F3 & _). rewrite Hh in Hz. cbn [l_flags] in Hz. rewrite F0, B0 in Hz.
  destruct (_ && _); discriminate.
Qed.

(** ** C38 *)
Lemma read_result_no_panic cd e d p : read_result cd e d <> Panic p.
Proof.
  unfold read_result, data_offset. destruct (_ <? 4); [discriminate|]. destruct (negb _); [discriminate|].
  destruct (_ <? 30); [discriminate|]. destruct (_ <=? _); [|discriminate]. cbn [rbind].
  destruct (decoded cd _ _) as [b []]; [destruct (_ =? _)|]; discriminate.
Qed.
Lemma read_entry_no_panic cd f i s p : read_entry cd f i s <> Panic p.
Proof.
  destruct (read_entry_faults cd f i s) as [E|(c & _ & E)]; rewrite E; [|discriminate].
  rewrite read_entry_closed by constructor. destruct (entry_at f i); [apply read_result_no_panic|discriminate].
Qed.
Lemma stream_next_panics cfg s p : fst (stream_next cfg s) = Panic p -> p = POverflow /\ overflow_checks cfg = true.
Proof.
  unfold stream_next. intro H. destruct (insens_faults (lfh_read cfg) s ltac:(auto with insens)) as [E|(c & _ & E)].
  - pose proof (tamer_lfh_read cfg (s_data s) (s_pos s)) as T. fold (calm s) in T. rewrite <- E in T.
    destruct (lfh_read cfg s) as [[[x|]|x|q] s']; cbn [fst] in *; try discriminate. injection H as ->. exact T.
  - destruct (lfh_read cfg s) as [[[x|]|x|q] s']; cbn [fst] in *; congruence.
Qed.
Lemma no_panic_release cfg s p : overflow_checks cfg = false -> 65535 * entry_mem_size cfg <= isize_max ->
  (forall q, ~ found_at (le 4 0x07064b50) (s_data s) q) -> fst (file cfg s) <> Panic p.
Proof.
  intros O M Hno H. apply file_panics in H as [[_ H]|[_ [H|(q & H)]]]; [congruence|lia|exact (Hno q H)].
Qed.

(** ** C03, C37 *)
Lemma open_classic_at cfg s l lead gap disk cd_size comment tail :
  Forall member_ok l ->
  s_data s = lead ++ members l ++ gap ++ end_record disk disk (len l) (len l) cd_size (len lead) (len comment)
             ++ comment ++ tail ->
  disk < 0x10000 -> len l < 0x10000 -> cd_size < 0x100000000 -> len lead < 0x100000000 ->
  len comment + len tail <= 65535 ->
  (forall q, found_at (le 4 0x06054b50) (s_data s) q -> q <= len (lead ++ members l ++ gap)) ->
  (forall q, found_at (le 4 0x07064b50) (s_data s) q -> q + 20 <> len (lead ++ members l ++ gap)) ->
  nofail (s_sched s) -> len l * entry_mem_size cfg <= isize_max ->
  exists f, fst (file cfg s) = Ok f /\ reported_file l false comment f.
Proof.
  intros H1 H2 H3 H4 H5 H6 H7 H8 H9 H10 H11.
  apply (open_classic cfg s l lead gap disk cd_size comment tail); try assumption.
  intros H F. apply (H9 _ F). lia.
Qed.
Lemma combine_chosen e z :
  combine e z =
  {| cb_disk_number := chosen 0xFFFF (e_disk_num e) (z_disk_number z);
     cb_disk_number_start_of_cd := chosen 0xFFFF (e_start_cent_dir_disk e) (z_disk_number_start_of_cd z);
     cb_num_entries_on_disk := chosen 0xFFFF (e_num_of_entries_disk e) (z_num_entries_on_disk z);
     cb_num_entries := chosen 0xFFFF (e_num_of_entries e) (z_num_entries z);
     cb_directory_size := chosen 0xFFFFFFFF (e_size_cent_dir e) (z_directory_size z);
     cb_offset := chosen 0xFFFFFFFF (e_cent_dir_offset e) (z_offset z);
     cb_comment_length := e_file_comm_length e |}.
Proof. reflexivity. Qed.

(** ** C10: where strings come from *)
Inductive obtainable : zstring -> Prop :=
| ob_new raw enc : obtainable (zs_new raw enc)
| ob_alternative text alt : is_utf8 text -> obtainable (zs_new_with_alternative text alt)
| ob_string text : is_utf8 text -> obtainable (zs_from_string text)
| ob_name cfg s f e : fst (file cfg s) = Ok f -> In e (f_entries f) -> obtainable (en_filename (st_entry e))
| ob_comment cfg s f e : fst (file cfg s) = Ok f -> In e (f_entries f) -> obtainable (en_comment (st_entry e))
| ob_archive_comment cfg s f : fst (file cfg s) = Ok f -> obtainable (f_comment f)
| ob_stream_name cfg s x : fst (stream_next cfg s) = Ok (Some x) -> obtainable (en_filename (rd_entry x))
| ob_stream_comment cfg s x : fst (stream_next cfg s) = Ok (Some x) -> obtainable (en_comment (rd_entry x)).
Lemma stream_next_entry cfg s x : fst (stream_next cfg s) = Ok (Some x) -> fst (lfh_read cfg s) = Ok (Some (rd_entry x)).
Proof.
  unfold stream_next. destruct (lfh_read cfg s) as [[[e|]|e|p] s']; cbn [fst]; intro H; try discriminate.
  injection H as <-. reflexivity.
Qed.
Lemma obtainable_sound z : obtainable z -> zs_sound z.
Proof.
  intros [raw enc|t a H|t H|cfg s f e H I|cfg s f e H I|cfg s f H|cfg s x H|cfg s x H].
  - apply zs_new_sound.
  - intros _. exact H.
  - intros _. exact H.
  - apply file_sound in H as [H _]. rewrite Forall_forall in H. apply H, I.
  - apply file_sound in H as [H _]. rewrite Forall_forall in H. apply H, I.
  - now apply file_sound in H as [_ H].
  - now apply stream_next_entry, lfh_read_sound in H.
  - now apply stream_next_entry, lfh_read_sound in H.
Qed.
Lemma obtainable_str z : obtainable z ->
  (forall b, zs_as_str z = Ok b -> is_utf8 b) /\ (forall b, zs_into_string z = Ok b -> is_utf8 b) /\
  (zs_enc z = ERaw -> zs_as_str z = Err StringNotUtf8 /\ zs_into_string z = Err StringNotUtf8) /\
  (zs_enc z = EUtf8 -> zs_as_str z = Ok (zs_raw z) /\ zs_into_string z = Ok (zs_raw z)).
Proof.
  intro H. apply obtainable_sound in H. destruct (sound_str z H) as (A & B & C). split; [easy|]. split; [easy|].
  split; [apply C|]. unfold zs_as_str, zs_into_string. intros ->. auto.
Qed.

(** ** C28: strings *)
Lemma string_checked cd e r b : fst (er_read_to_string_checked cd e r) = Ok b <->
  fst (er_read_to_end_checked cd e r) = Ok b /\ is_utf8 b.
Proof.
  unfold er_read_to_string_checked, er_read_to_end_checked, bind.
  destruct (er_read_to_end cd r) as [[x|x|p] r1]; cbn [fst]; [|split; [discriminate|intros [? _]; discriminate]..].
  rewrite <- utf8_valid_iff. cbn [er_compute_hash].
  destruct (utf8_valid x) eqn:U; destruct (_ =? en_crc32 e); cbn [fst ret fail lift]; split; intro H; try discriminate;
    try (destruct H; congruence). split; [easy|]. okinv H. now subst.
Qed.
Lemma string_errors cd e r x : fst (er_read_to_string_checked cd e r) = Err x <->
  (exists b, fst (er_read_to_end cd r) = Ok b /\ ~ is_utf8 b /\ x = UpstreamReadError InvalidData) \/
  (exists b, fst (er_read_to_end cd r) = Ok b /\ is_utf8 b /\ fst (er_read_to_end_checked cd e r) = Err x) \/
  fst (er_read_to_end cd r) = Err x.
Proof.
  unfold er_read_to_string_checked, er_read_to_end_checked, bind.
  destruct (er_read_to_end cd r) as [[y|y|p] r1]; cbn [fst].
  - destruct (utf8_valid y) eqn:U.
    + split; [intro H; right; left; exists y; split; [reflexivity|]; split; [now apply utf8_valid_iff|exact H]|].
      intros [(b & B & NU & _)|[(b & _ & _ & H)|H]]; [|exact H|discriminate H]. injection B as <-. now apply utf8_valid_iff in U.
    + split.
      * intro H. left. exists y. split; [reflexivity|]. split; [|now injection H]. intro C. apply utf8_valid_iff in C. congruence.
      * intros [(b & _ & _ & ->)|[(b & B & UB & _)|H]]; [reflexivity| |discriminate H]. injection B as <-. apply utf8_valid_iff in UB. congruence.
  - split; [now right; right|]. intros [(b & B & _)|[(b & B & _)|H]]; [discriminate B..|exact H].
  - split; [discriminate|]. intros [(b & B & _)|[(b & B & _)|H]]; [discriminate B..|discriminate H].
Qed.
Definition bare_entry (c : compression) (crc usize csize : N) : zentry :=
  {| en_filename := zs_new [] EUtf8; en_compression := c; en_level := LDefault; en_crc32 := crc;
     en_uncompressed_size := usize; en_compressed_size := csize; en_attr_compat := Unix; en_date := {| zd_date := 0; zd_time := 0 |};
     en_iattr := 0; en_eattr := 0; en_extra := []; en_comment := zs_new [] EUtf8; en_data_descriptor := false |}.
Lemma checked_twice : exists cd s c n e b r, er_read_to_end_checked cd e (er_new s c n) = (Ok b, r) /\
  fst (er_read_to_end cd r) = Ok [] /\ crc32_spec (b ++ []) = en_crc32 e /\
  fst (er_read_to_end_checked cd e r) = Err CRC32CheckError.
Proof.
  exists toy, (cursor [x61]), Stored, 1, (bare_entry Stored (crc32_spec [x61]) 1 1), [x61]. eexists.
  split; [vm_compute; reflexivity|]. repeat split; vm_compute; reflexivity.
Qed.
