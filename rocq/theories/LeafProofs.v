(** Combined statements for the leaf properties (records, flags, methods, extra fields, dates,
    permissions), proved from the *Facts files. *)
From Verif Require Import Base BaseFacts Utf8 SpecUtf8 Utf8Facts ZString ZDate ZDateFacts Headers SpecFormat
  HeadersFacts ExtraField ExtraFieldFacts Entry EntryFacts Crc32 SpecCrc CrcFacts.
Arguments N.mul : simpl never.
Arguments N.add : simpl never.
Arguments to_le : simpl never.
Arguments from_le : simpl never.

Lemma drop4_layout k (x y : bytes) : to_le 4 k ++ x = y -> drop 4 y = x.
Proof. intros <-. apply drop_app_exact. apply len_to_le. Qed.

Lemma lfh_spec v e d u m t dt crc cs us nl xl :
  v < 65536 -> m < 65536 -> t < 65536 -> dt < 65536 -> crc < 4294967296 -> cs < 4294967296 ->
  us < 4294967296 -> nl < 65536 -> xl < 65536 ->
  let h := {| l_version := v;
              l_flags := {| gp_encrypted := e; gp_data_descriptor := d; gp_filename_unicode := u |};
              l_compression := m; l_mod_time := t; l_mod_date := dt; l_crc := crc; l_compressed_size := cs;
              l_uncompressed_size := us; l_file_name_length := nl; l_extra_field_length := xl |} in
  to_le 4 LFH_SIGNATURE ++ lfh_as_slice h = local_header v (flag_word e d u) m t dt crc cs us nl xl /\
  lfh_from (drop 4 (local_header v (flag_word e d u) m t dt crc cs us nl xl)) = h.
Proof.
  intros. pose proof (lfh_layout h) as L. split; [exact L|].
  rewrite <- (lfh_roundtrip h) by (repeat split; assumption). f_equal. now apply drop4_layout in L.
Qed.
Lemma cdr_spec mb v e d u m t dt crc cs us nl xl cl ds ia ea off :
  mb < 65536 -> v < 65536 -> m < 65536 -> t < 65536 -> dt < 65536 -> crc < 4294967296 ->
  cs < 4294967296 -> us < 4294967296 -> nl < 65536 -> xl < 65536 -> cl < 65536 -> ds < 65536 ->
  ia < 65536 -> ea < 4294967296 -> off < 4294967296 ->
  let h := {| c_v_made_by := mb; c_v_needed := v;
              c_flags := {| gp_encrypted := e; gp_data_descriptor := d; gp_filename_unicode := u |};
              c_compression := m; c_mod_time := t; c_mod_date := dt; c_crc := crc; c_compressed_size := cs;
              c_uncompressed_size := us; c_file_name_length := nl; c_extra_field_length := xl;
              c_file_comment_length := cl; c_disk_start := ds; c_inter_attr := ia; c_exter_attr := ea;
              c_lh_offset := off |} in
  to_le 4 CDH_SIGNATURE ++ cdr_as_slice h =
    central_header mb v (flag_word e d u) m t dt crc cs us nl xl cl ds ia ea off /\
  cdr_from (drop 4 (central_header mb v (flag_word e d u) m t dt crc cs us nl xl cl ds ia ea off)) = h.
Proof.
  intros. pose proof (cdr_layout h) as L. split; [exact L|].
  rewrite <- (cdr_roundtrip h) by (repeat split; assumption). f_equal. now apply drop4_layout in L.
Qed.
Lemma eocdr_spec dn sd nd n sz off cl :
  dn < 65536 -> sd < 65536 -> nd < 65536 -> n < 65536 -> sz < 4294967296 -> off < 4294967296 -> cl < 65536 ->
  let h := {| e_disk_num := dn; e_start_cent_dir_disk := sd; e_num_of_entries_disk := nd;
              e_num_of_entries := n; e_size_cent_dir := sz; e_cent_dir_offset := off; e_file_comm_length := cl |} in
  to_le 4 EOCDR_SIGNATURE ++ eocdr_as_slice h = end_record dn sd nd n sz off cl /\
  eocdr_from (drop 4 (end_record dn sd nd n sz off cl)) = h /\
  (forall v, length v = 18%nat -> eocdr_as_slice (eocdr_from v) = v).
Proof.
  intros. pose proof (eocdr_layout h) as L. split; [exact L|]. split; [|exact eocdr_bytes_roundtrip].
  rewrite <- (eocdr_roundtrip h) by (repeat split; assumption). f_equal. now apply drop4_layout in L.
Qed.
Lemma z64_eocdr_spec mb vn dn sd nd n sz off :
  mb < 65536 -> vn < 65536 -> dn < 4294967296 -> sd < 4294967296 -> nd < 18446744073709551616 ->
  n < 18446744073709551616 -> sz < 18446744073709551616 -> off < 18446744073709551616 ->
  let h := {| z_size := 44; z_version_made_by := mb; z_version_needed := vn; z_disk_number := dn;
              z_disk_number_start_of_cd := sd; z_num_entries_on_disk := nd; z_num_entries := n;
              z_directory_size := sz; z_offset := off |} in
  to_le 4 ZIP64_EOCDR_SIGNATURE ++ z64_eocdr_as_bytes h = zip64_end_record mb vn dn sd nd n sz off /\
  z64_eocdr_from (drop 4 (zip64_end_record mb vn dn sd nd n sz off)) = h /\
  (forall v, length v = 52%nat -> z64_eocdr_as_bytes (z64_eocdr_from v) = v).
Proof.
  intros. pose proof (z64_eocdr_layout h eq_refl) as L. split; [exact L|]. split; [|exact z64_eocdr_bytes_roundtrip].
  rewrite <- (z64_eocdr_roundtrip h) by (repeat split; try assumption; reflexivity). f_equal. now apply drop4_layout in L.
Qed.
Lemma z64_eocdl_spec d off n :
  d < 4294967296 -> off < 18446744073709551616 -> n < 4294967296 ->
  let h := {| zl_disk := d; zl_relative_offset := off; zl_total_disks := n |} in
  to_le 4 ZIP64_EOCDL_SIGNATURE ++ z64_eocdl_as_bytes h = zip64_end_locator d off n /\
  z64_eocdl_from (drop 4 (zip64_end_locator d off n)) = h /\
  (forall v, length v = 16%nat -> z64_eocdl_as_bytes (z64_eocdl_from v) = v).
Proof.
  intros. pose proof (z64_eocdl_layout h) as L. split; [exact L|]. split; [|exact z64_eocdl_bytes_roundtrip].
  rewrite <- (z64_eocdl_roundtrip h) by (repeat split; assumption). f_equal. now apply drop4_layout in L.
Qed.

(** C05 *)
Lemma flags_encode f :
  gp_value f = flag_word (gp_encrypted f) (gp_data_descriptor f) (gp_filename_unicode f) /\
  gp_as_slice f = le 2 (gp_value f) /\ gp_from (from_le (gp_as_slice f)) = f.
Proof.
  split; [apply gp_value_word|]. split; [symmetry; apply le_to_le|].
  unfold gp_as_slice. rewrite from_to_le2 by apply gp_value_bound. apply gp_roundtrip.
Qed.

Lemma flags_decode v :
  gp_encrypted (gp_from v) = N.testbit v 0 /\
  gp_data_descriptor (gp_from v) = N.testbit v 3 /\
  gp_filename_unicode (gp_from v) = N.testbit v 11.
Proof. rewrite gp_from_bits. now repeat split. Qed.

(** C06 *)
Lemma compression_accept v : (exists c, compression_try_from v = Ok c) <-> In v [0; 8; 9; 12; 14; 93; 95].
Proof.
  split.
  - intros [c H]. apply compression_from_ok in H. subst. destruct c; cbn; tauto.
  - cbn. intros [<-|[<-|[<-|[<-|[<-|[<-|[<-|[]]]]]]]]; eexists; reflexivity.
Qed.
Lemma compression_reject v : ~ In v [0; 8; 9; 12; 14; 93; 95] ->
  compression_try_from v = Err (CompressionNotSupported v).
Proof. intro H. apply compression_from_other. intros c ->. apply H. destruct c; cbn; tauto. Qed.

(** C07 *)
Definition has_disk (x : extra_field) : bool :=
  match x with XZip64 z => negb (is_none (zf_disk z)) | _ => false end.
Lemma len_field_bytes_any x b : field_as_bytes x = Ok b ->
  len b + (if has_disk x then 4 else 0) = field_count_bytes x.
Proof.
  intro H. destruct x as [z|u|u|id sz c]; cbn [has_disk].
  - cbn [field_as_bytes field_count_bytes] in *. okinv H; subst b.
    unfold zip64_as_bytes, zip64_count_bytes. fold (zip64_payload z).
    rewrite !len_app, !len_to_le. pose proof (len_zip64_payload_any z) as E.
    destruct (zf_disk z); cbn [is_none negb]; lia.
  - rewrite N.add_0_r. now apply len_field_bytes.
  - rewrite N.add_0_r. now apply len_field_bytes.
  - rewrite N.add_0_r. now apply len_field_bytes.
Qed.
Lemma len_fields_bytes_any l : forall b, fields_as_bytes l = Ok b ->
  len b + 4 * len (filter has_disk l) = fields_count_bytes l.
Proof.
  induction l as [|x l IH]; intros b H; cbn [fields_as_bytes] in H.
  - okinv H; subst. reflexivity.
  - apply rbind_ok in H as (a & Ha & H). apply rbind_ok in H as (c & Hc & H). okinv H; subst.
    cbn [fields_count_bytes filter]. rewrite len_app. specialize (IH c Hc). apply len_field_bytes_any in Ha.
    destruct (has_disk x); rewrite ?len_cons; lia.
Qed.

(** C08: write then parse *)
Lemma fields_roundtrip cfg usize csize l b :
  Forall field_wt l -> Forall field_size_ok l -> Forall (field_consistent usize csize) l -> last_nonempty l ->
  fields_count_bytes l < 65536 -> fields_as_bytes l = Ok b -> parse_extra_fields cfg b usize csize = Ok l.
Proof.
  intros W S C Hl Hc H. destruct (fields_as_bytes_small l W S Hc) as (E & _ & B).
  rewrite E in H. okinv H. subst. now apply parse_fields_image.
Qed.
Lemma fields_blocks l b : Forall field_wt l -> Forall field_size_ok l -> fields_count_bytes l < 65536 ->
  fields_as_bytes l = Ok b ->
  b = concat (map (fun x => extra (field_id x) (field_payload x)) l) /\
  Forall (fun x => len (field_payload x) < 65536) l.
Proof.
  intros W S Hc H. destruct (fields_as_bytes_small l W S Hc) as (E & _ & B).
  rewrite E in H. okinv H. subst. now split.
Qed.

(** C09 *)
Lemma not_panic {A} (r : res A) : is_panic r = false <-> forall p, r <> Panic p.
Proof. destruct r as [a|e|p]; cbn [is_panic]; split; try easy. intro H. now elim (H p). Qed.
Lemma parse_release_no_panic cfg d u c : overflow_checks cfg = false ->
  is_panic (parse_extra_fields cfg d u c) = false.
Proof.
  intro O. destruct (block_total d) as (l & ok & B).
  destruct (parse_block cfg d u c l ok B) as (last & -> & H1 & H2 & H3).
  apply decode_all_no_panic. destruct ok.
  - now rewrite H1.
  - destruct H3 as (sz & r & ->); auto.
Qed.
Lemma parse_checked_panic cfg d u c l : block d l true -> is_panic (parse_extra_fields cfg d u c) = false.
Proof.
  intro B. destruct (parse_block cfg d u c l true B) as (last & -> & H1 & _).
  apply decode_all_no_panic. now rewrite H1.
Qed.
Lemma parse_ok_tokens cfg d u c xs : parse_extra_fields cfg d u c = Ok xs ->
  exists toks, block d toks true /\
    Forall2 (fun t x => extra_field_from_bytes (fst t) (len (snd t)) (snd t) u c = Ok x) toks xs.
Proof.
  intro H. destruct (block_total d) as (l & ok & B).
  destruct (parse_block cfg d u c l ok B) as (last & E & H1 & H2 & H3).
  rewrite H in E. symmetry in E. apply decode_all_ok in E as (ys & zs & -> & Hl & HF).
  destruct ok.
  - rewrite H1 in Hl by easy. okinv Hl. subst zs. exists l. rewrite app_nil_r. now split.
  - destruct (overflow_checks cfg) eqn:EO.
    + rewrite H2 in Hl by easy. discriminate.
    + destruct H3 as (?&?&H3); try easy. rewrite H3 in Hl. discriminate.
Qed.

(** C13 *)
Lemma set_month_fresh d x : zd_month d = 0 -> x < 16 -> zd_month (zb_month d x) = x.
Proof. intros H Hx. rewrite set_month_or, H, N.lor_0_l by lia. now apply N.mod_small. Qed.
Lemma set_day_fresh d x : zd_day d = 0 -> x < 32 -> zd_day (zb_day d x) = x.
Proof. intros H Hx. rewrite set_day_or, H, N.lor_0_l. now apply N.mod_small. Qed.
Lemma set_hour_fresh d x : zd_hour d = 0 -> x < 32 -> zd_hour (zb_hour d x) = x.
Proof. intros H Hx. rewrite set_hour_or, H, N.lor_0_l by lia. now apply N.mod_small. Qed.
Lemma set_minute_fresh d x : zd_minute d = 0 -> x < 64 -> zd_minute (zb_minute d x) = x.
Proof. intros H Hx. rewrite set_minute_or, H, N.lor_0_l by lia. now apply N.mod_small. Qed.
Lemma set_second_fresh d x : zd_second d = 0 -> x < 64 -> zd_second (zb_second d x) = 2 * (x / 2).
Proof. intros H Hx. rewrite set_second_or, H. change (0 / 2) with 0. rewrite N.lor_0_l. lia. Qed.
Lemma set_year_fresh c d y : zd_year d = 1980%Z -> (1980 <= y <= 2107)%Z ->
  exists d', zb_year c d y = Ok d' /\ zd_year d' = y.
Proof.
  intros H Hy. destruct (set_year_or c d y Hy) as (d' & E & E'). exists d'. split; [easy|].
  rewrite E', H. change (Z.to_N (1980 - 1980)) with 0. rewrite N.lor_0_l. lia.
Qed.

Lemma setters_or d x : x < 65536 ->
  zd_day (zb_day d x) = N.lor (zd_day d) (x mod 32) /\
  zd_month (zb_month d x) = N.lor (zd_month d) (x mod 16) /\
  zd_hour (zb_hour d x) = N.lor (zd_hour d) (x mod 32) /\
  zd_minute (zb_minute d x) = N.lor (zd_minute d) (x mod 64) /\
  zd_second (zb_second d x) = 2 * N.lor (zd_second d / 2) (x / 2 mod 32).
Proof.
  intro H. rewrite set_day_or, set_month_or, set_hour_or, set_minute_or, set_second_or by lia. tauto.
Qed.

(** C42 *)
Lemma dir_spec e : zs_sound (en_filename e) ->
  match zs_enc (en_filename e) with
  | ERaw => entry_dir e = Err StringNotUtf8
  | EUtf8 => exists b, entry_dir e = Ok b /\
      (b = true <-> exists cs, Forall scalar cs /\ zs_raw (en_filename e) = concat (map encode_scalar (cs ++ [0x2F])))
  end.
Proof.
  unfold zs_sound, entry_dir, zs_as_str. destruct (zs_enc (en_filename e)); intro H; [|reflexivity].
  eexists. split; [reflexivity|]. apply ends_with_slash_spec. auto.
Qed.

(** C43 *)
Lemma crc_pieces ls : hasher_finalize (fold_left hasher_update ls hasher_new) = crc32_spec (concat ls).
Proof. rewrite hasher_update_concat, <- crc32_is_spec. reflexivity. Qed.

Lemma zip64_built z : zfb_build z =
  match zf_uncompressed z, zf_compressed z, zf_offset z, zf_disk z with None, None, None, None => Err Zip64ExtendedFieldIncomplete | _, _, _, _ => Ok z end.
Proof. destruct z as [[u|] [c|] [o|] [d|]]; reflexivity. Qed.
Lemma zip64_central z : zfb_eof_only z = true <->
  zf_uncompressed z = None /\ zf_compressed z = None /\ (zf_offset z <> None \/ zf_disk z <> None).
Proof.
  destruct z as [[u|] [c|] [o|] [d|]]; cbn; split; intros H; try discriminate; try (destruct H as (A & B & C); discriminate);
    repeat split; try (left; discriminate); try (right; discriminate).
  destruct H as (_ & _ & [H | H]); destruct (H eq_refl).
Qed.
