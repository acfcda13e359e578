(** Reading local file headers. *)
From Verif Require Import Base BaseFacts SpecFormat SpecArchive ZString ZDate Headers HeadersFacts
  ExtraField ExtraFieldFacts Entry IO IOFacts Reader ReaderFacts OpenFacts TameFacts.
Arguments N.add : simpl never.
Arguments N.sub : simpl never.
Arguments N.min : simpl never.
Arguments N.mul : simpl never.

(** what [lfh_read] makes of a header, name and extra field block *)
Definition lfh_entry (h : lfh) (c : compression) (name : bytes) (xs : list extra_field) : zentry :=
  {| en_filename := detect_filename name (gp_filename_unicode (l_flags h)) xs; en_compression := c; en_level := LDefault;
     en_crc32 := l_crc h;
     en_uncompressed_size := fst (get_combined_sizes (l_uncompressed_size h) (l_compressed_size h) (get_zip64_extra_field xs));
     en_compressed_size := snd (get_combined_sizes (l_uncompressed_size h) (l_compressed_size h) (get_zip64_extra_field xs));
     en_attr_compat := Unix; en_date := {| zd_date := l_mod_date h; zd_time := l_mod_time h |};
     en_iattr := 0; en_eattr := 0; en_extra := xs; en_comment := zs_from_string [];
     en_data_descriptor := gp_data_descriptor (l_flags h) |}.
Definition lfh_view (cfg : config) (h : lfh) (name x : bytes) : res (option zentry) :=
  let? c := compression_try_from (l_compression h) in
  let? xs := parse_extra_fields cfg x (l_uncompressed_size h) (l_compressed_size h) in
  if gp_data_descriptor (l_flags h) && compression_eqb c Stored then Err (FeatureNotSupported FStreamStored)
  else if gp_encrypted (l_flags h) then Err (FeatureNotSupported FEncryption)
  else Ok (Some (lfh_entry h c name xs)).

Lemma lfh_from_reader_here d p hb y : drop p d = hb ++ y -> len hb = 26 ->
  lfh_from_reader (src d p) = (Ok (lfh_from hb), src d (p + 26)).
Proof. intros E L. unfold lfh_from_reader. now rewrite (bind_ok _ _ _ _ _ (read_exact_here 26 d p _ _ E L)). Qed.

Lemma bind_lift {S A B} (r : res A) (f : A -> SM S B) s :
  bind (lift r) f s = match r with Ok a => f a s | Err e => (Err e, s) | Panic p => (Panic p, s) end.
Proof. unfold bind, lift. now destruct r. Qed.

Lemma lfh_read_here cfg d p hb name x y :
  drop p d = to_le 4 LFH_SIGNATURE ++ hb ++ name ++ x ++ y -> len hb = 26 ->
  l_file_name_length (lfh_from hb) = len name -> l_extra_field_length (lfh_from hb) = len x ->
  exists p', lfh_read cfg (src d p) = (lfh_view cfg (lfh_from hb) name x, src d p') /\
    (is_ok (lfh_view cfg (lfh_from hb) name x) = true -> p' = p + (30 + len name + len x)).
Proof.
  intros E L1 L2 L3. unfold lfh_read.
  rewrite (bind_ok _ _ _ _ _ (read_exact_here 4 d p _ _ E (len_to_le 4 _))).
  rewrite from_to_le4 by reflexivity. cbv zeta.
  change (LFH_SIGNATURE =? CDH_SIGNATURE) with false. change (negb (LFH_SIGNATURE =? LFH_SIGNATURE)) with false. cbv iota.
  apply (drop_step 4) in E; [|apply len_to_le].
  rewrite (bind_ok _ _ _ _ _ (lfh_from_reader_here d _ _ _ E L1)).
  apply (drop_step 26) in E; [|easy]. set (h := lfh_from hb) in *.
  rewrite (bind_ok _ _ _ _ _ (read_bytes_here _ d _ _ _ E (eq_sym L2))).
  rewrite bind_lift. unfold lfh_view at 1 2.
  destruct (compression_try_from (l_compression h)) as [c|e|pn]; cbn [rbind];
    [|eexists; split; [reflexivity|discriminate]|eexists; split; [reflexivity|discriminate]].
  apply (drop_step (l_file_name_length h)) in E; [|easy].
  rewrite (bind_ok _ _ _ _ _ (read_bytes_here _ d _ _ _ E (eq_sym L3))).
  rewrite bind_lift.
  destruct (parse_extra_fields cfg x _ _) as [xs|e|pn]; cbn [rbind];
    [|eexists; split; [reflexivity|discriminate]|eexists; split; [reflexivity|discriminate]].
  unfold lfh_entry.
  destruct (get_combined_sizes _ _ _) as [us cs].
  destruct (_ && _); [eexists; split; [reflexivity|discriminate]|].
  destruct (gp_encrypted _); [eexists; split; [reflexivity|discriminate]|].
  eexists. split; [reflexivity|]. intros _. rewrite <- L2, <- L3. lia.
Qed.

Lemma lfh_read_end cfg d p y : drop p d = to_le 4 CDH_SIGNATURE ++ y ->
  lfh_read cfg (src d p) = (Ok None, src d (p + 4)).
Proof.
  intro E. unfold lfh_read. rewrite (bind_ok _ _ _ _ _ (read_exact_here 4 d p _ _ E (len_to_le 4 _))).
  now rewrite from_to_le4 by reflexivity.
Qed.

Lemma lfh_read_wrong cfg d p sg y : sg < 4294967296 -> sg <> CDH_SIGNATURE -> sg <> LFH_SIGNATURE ->
  drop p d = to_le 4 sg ++ y ->
  lfh_read cfg (src d p) = (Err (UnexpectedHeaderError sg LFH_SIGNATURE), src d (p + 4)).
Proof.
  intros B H1 H2 E. unfold lfh_read. rewrite (bind_ok _ _ _ _ _ (read_exact_here 4 d p _ _ E (len_to_le 4 _))).
  rewrite from_to_le4 by easy. cbv zeta. apply N.eqb_neq in H1, H2. now rewrite H1, H2.
Qed.

(** ** seeking to the data of an entry *)
Lemma seek_to_data_offset_here e d p0 hb y :
  drop (st_file_offset e) d = to_le 4 LFH_SIGNATURE ++ hb ++ y -> len hb = 26 ->
  st_file_offset e + 30 + l_file_name_length (lfh_from hb) + l_extra_field_length (lfh_from hb) <= u64_max ->
  seek_to_data_offset e (src d p0) =
  (Ok tt, src d (st_file_offset e + 30 + l_file_name_length (lfh_from hb) + l_extra_field_length (lfh_from hb))).
Proof.
  intros E L1 B. unfold seek_to_data_offset. rewrite (bind_ok _ _ _ _ _ (seek_start_src _ d p0)).
  rewrite (bind_ok _ _ _ _ _ (read_exact_here 4 d _ _ _ E (len_to_le 4 _))).
  rewrite from_to_le4 by reflexivity. cbv zeta. change (negb (LFH_SIGNATURE =? LFH_SIGNATURE)) with false. cbv iota.
  apply (drop_step 4) in E; [|apply len_to_le].
  rewrite (bind_ok _ _ _ _ _ (lfh_from_reader_here d _ _ _ E L1)).
  unfold bind, seek_current. cbn [s_pos src].
  replace (_ <=? u64_max) with true by lia. unfold ret, set_pos, src. cbn [s_data s_sched]. do 2 f_equal. lia.
Qed.

Lemma seek_to_data_offset_wrong e d p0 sg y : sg < 4294967296 -> sg <> LFH_SIGNATURE ->
  drop (st_file_offset e) d = to_le 4 sg ++ y ->
  fst (seek_to_data_offset e (src d p0)) = Err (UnexpectedHeaderError sg LFH_SIGNATURE).
Proof.
  intros B H E. unfold seek_to_data_offset. rewrite (bind_ok _ _ _ _ _ (seek_start_src _ d p0)).
  rewrite (bind_ok _ _ _ _ _ (read_exact_here 4 d _ _ _ E (len_to_le 4 _))).
  rewrite from_to_le4 by easy. cbv zeta. apply N.eqb_neq in H. now rewrite H.
Qed.
