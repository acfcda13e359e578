(** Facts about the fixed-size records. *)
From Verif Require Import Base BaseFacts Headers SpecFormat.
Arguments N.mul : simpl never.
Arguments N.add : simpl never.
Arguments N.div : simpl never.

Lemma le_to_le k n : le k n = to_le k n.
Proof.
  unfold le. transitivity (to_le k (n / 256 ^ N.of_nat 0)); [|now rewrite N.div_1_r].
  generalize 0%nat as i. induction k; intro i; [reflexivity|].
  cbn [seq map to_le]. f_equal. rewrite IHk, N.div_div, N.mul_comm by (try apply N.pow_nonzero; lia).
  rewrite <- N.pow_succ_r', Nat2N.inj_succ. reflexivity.
Qed.

Lemma le2 n : n < 65536 -> from_le [n2b n; n2b (n / 256)] = n.
Proof. exact (from_to_le2 n). Qed.
Lemma le4 n : n < 4294967296 ->
  from_le [n2b n; n2b (n / 256); n2b (n / 256 / 256); n2b (n / 256 / 256 / 256)] = n.
Proof. exact (from_to_le4 n). Qed.
Lemma le8 n : n < 18446744073709551616 ->
  from_le [n2b n; n2b (n / 256); n2b (n / 256 / 256); n2b (n / 256 / 256 / 256);
           n2b (n / 256 / 256 / 256 / 256); n2b (n / 256 / 256 / 256 / 256 / 256);
           n2b (n / 256 / 256 / 256 / 256 / 256 / 256); n2b (n / 256 / 256 / 256 / 256 / 256 / 256 / 256)] = n.
Proof. exact (from_to_le8 n). Qed.

Lemma from_le2_bound a b : from_le [a; b] < 65536.
Proof. exact (from_le_bound [a; b]). Qed.
Lemma from_le4_bound a b c d : from_le [a; b; c; d] < 4294967296.
Proof. exact (from_le_bound [a; b; c; d]). Qed.
Lemma from_le8_bound a b c d e f g h : from_le [a; b; c; d; e; f; g; h] < 18446744073709551616.
Proof. exact (from_le_bound [a; b; c; d; e; f; g; h]). Qed.

Lemma gp_roundtrip f : gp_from (gp_value f) = f.
Proof. destruct f as [[] [] []]; reflexivity. Qed.
Lemma gp_value_bound f : gp_value f < 65536.
Proof. destruct f as [[] [] []]; cbn; lia. Qed.
Lemma gp_value_word f : gp_value f = flag_word (gp_encrypted f) (gp_data_descriptor f) (gp_filename_unicode f).
Proof. destruct f as [[] [] []]; reflexivity. Qed.

Lemma gp_from_bits v : gp_from v =
  {| gp_encrypted := N.testbit v 0; gp_data_descriptor := N.testbit v 3; gp_filename_unicode := N.testbit v 11 |}.
Proof.
  assert (H : forall k, negb (N.shiftr (N.land v (N.shiftl 1 k)) k =? 0) = N.testbit v k).
  { intro k. rewrite N.shiftr_land. rewrite N.shiftr_shiftl_l, N.sub_diag by lia.
    change (N.shiftl 1 0) with (N.ones 1). rewrite N.land_ones. change (2 ^ 1) with 2.
    rewrite <- N.bit0_mod, N.shiftr_spec', N.add_0_l. now destruct (N.testbit v k). }
  unfold gp_from. f_equal.
  - rewrite <- (N.shiftr_0_r (N.land v 1)). apply (H 0).
  - apply (H 3).
  - apply (H 11).
Qed.

Definition lfh_ok (h : lfh) : Prop :=
  l_version h < 65536 /\ l_compression h < 65536 /\ l_mod_time h < 65536 /\ l_mod_date h < 65536 /\
  l_crc h < 4294967296 /\ l_compressed_size h < 4294967296 /\ l_uncompressed_size h < 4294967296 /\
  l_file_name_length h < 65536 /\ l_extra_field_length h < 65536.
Definition cdr_ok (h : cdr) : Prop :=
  c_v_made_by h < 65536 /\ c_v_needed h < 65536 /\ c_compression h < 65536 /\ c_mod_time h < 65536 /\
  c_mod_date h < 65536 /\ c_crc h < 4294967296 /\ c_compressed_size h < 4294967296 /\
  c_uncompressed_size h < 4294967296 /\ c_file_name_length h < 65536 /\ c_extra_field_length h < 65536 /\
  c_file_comment_length h < 65536 /\ c_disk_start h < 65536 /\ c_inter_attr h < 65536 /\
  c_exter_attr h < 4294967296 /\ c_lh_offset h < 4294967296.
Definition eocdr_ok (h : eocdr) : Prop :=
  e_disk_num h < 65536 /\ e_start_cent_dir_disk h < 65536 /\ e_num_of_entries_disk h < 65536 /\
  e_num_of_entries h < 65536 /\ e_size_cent_dir h < 4294967296 /\ e_cent_dir_offset h < 4294967296 /\
  e_file_comm_length h < 65536.
Definition z64_eocdr_ok (h : z64_eocdr) : Prop :=
  z_size h < 18446744073709551616 /\ z_version_made_by h < 65536 /\ z_version_needed h < 65536 /\
  z_disk_number h < 4294967296 /\ z_disk_number_start_of_cd h < 4294967296 /\
  z_num_entries_on_disk h < 18446744073709551616 /\ z_num_entries h < 18446744073709551616 /\
  z_directory_size h < 18446744073709551616 /\ z_offset h < 18446744073709551616.
Definition z64_eocdl_ok (h : z64_eocdl) : Prop :=
  zl_disk h < 4294967296 /\ zl_relative_offset h < 18446744073709551616 /\ zl_total_disks h < 4294967296.

Ltac record_parse :=
  cbn [gp_as_slice to_le app sub firstn skipn Nat.sub];
  rewrite ?le2, ?le4, ?le8 by (first [assumption | apply gp_value_bound]);
  rewrite ?gp_roundtrip.

Lemma lfh_roundtrip h : lfh_ok h -> lfh_from (lfh_as_slice h) = h.
Proof.
  intros (?&?&?&?&?&?&?&?&?). unfold lfh_from, lfh_as_slice, gp_as_slice. record_parse. now destruct h.
Qed.
Lemma cdr_roundtrip h : cdr_ok h -> cdr_from (cdr_as_slice h) = h.
Proof.
  intros (?&?&?&?&?&?&?&?&?&?&?&?&?&?&?). unfold cdr_from, cdr_as_slice, gp_as_slice. record_parse. now destruct h.
Qed.
Lemma eocdr_roundtrip h : eocdr_ok h -> eocdr_from (eocdr_as_slice h) = h.
Proof. intros (?&?&?&?&?&?&?). unfold eocdr_from, eocdr_as_slice. record_parse. now destruct h. Qed.
Lemma z64_eocdr_roundtrip h : z64_eocdr_ok h -> z64_eocdr_from (z64_eocdr_as_bytes h) = h.
Proof.
  intros (?&?&?&?&?&?&?&?&?). unfold z64_eocdr_from, z64_eocdr_as_bytes. record_parse. now destruct h.
Qed.
Lemma z64_eocdl_roundtrip h : z64_eocdl_ok h -> z64_eocdl_from (z64_eocdl_as_bytes h) = h.
Proof. intros (?&?&?). unfold z64_eocdl_from, z64_eocdl_as_bytes. record_parse. now destruct h. Qed.

(** headers with an arbitrary 16-bit flag word *)
Lemma cdr_from_fields made needed flags method time date crc cs us nl xl cl disk ia ea off :
  made < 65536 -> needed < 65536 -> flags < 65536 -> method < 65536 -> time < 65536 -> date < 65536 ->
  crc < 4294967296 -> cs < 4294967296 -> us < 4294967296 -> nl < 65536 -> xl < 65536 -> cl < 65536 ->
  disk < 65536 -> ia < 65536 -> ea < 4294967296 -> off < 4294967296 ->
  cdr_from (to_le 2 made ++ to_le 2 needed ++ to_le 2 flags ++ to_le 2 method ++ to_le 2 time ++ to_le 2 date ++
    to_le 4 crc ++ to_le 4 cs ++ to_le 4 us ++ to_le 2 nl ++ to_le 2 xl ++ to_le 2 cl ++ to_le 2 disk ++ to_le 2 ia ++
    to_le 4 ea ++ to_le 4 off ++ []) =
  {| c_v_made_by := made; c_v_needed := needed; c_flags := gp_from flags; c_compression := method; c_mod_time := time;
     c_mod_date := date; c_crc := crc; c_compressed_size := cs; c_uncompressed_size := us; c_file_name_length := nl;
     c_extra_field_length := xl; c_file_comment_length := cl; c_disk_start := disk; c_inter_attr := ia;
     c_exter_attr := ea; c_lh_offset := off |}.
Proof. intros. unfold cdr_from. record_parse. reflexivity. Qed.
Lemma lfh_from_fields version flags method time date crc cs us nl xl :
  version < 65536 -> flags < 65536 -> method < 65536 -> time < 65536 -> date < 65536 ->
  crc < 4294967296 -> cs < 4294967296 -> us < 4294967296 -> nl < 65536 -> xl < 65536 ->
  lfh_from (to_le 2 version ++ to_le 2 flags ++ to_le 2 method ++ to_le 2 time ++ to_le 2 date ++
    to_le 4 crc ++ to_le 4 cs ++ to_le 4 us ++ to_le 2 nl ++ to_le 2 xl ++ []) =
  {| l_version := version; l_flags := gp_from flags; l_compression := method; l_mod_time := time;
     l_mod_date := date; l_crc := crc; l_compressed_size := cs; l_uncompressed_size := us; l_file_name_length := nl;
     l_extra_field_length := xl |}.
Proof. intros. unfold lfh_from. record_parse. reflexivity. Qed.

Lemma len_lfh h : len (lfh_as_slice h) = 26. Proof. reflexivity. Qed.
Lemma len_cdr h : len (cdr_as_slice h) = 42. Proof. reflexivity. Qed.
Lemma len_eocdr h : len (eocdr_as_slice h) = 18. Proof. reflexivity. Qed.
Lemma len_z64_eocdr h : len (z64_eocdr_as_bytes h) = 52. Proof. reflexivity. Qed.
Lemma len_z64_eocdl h : len (z64_eocdl_as_bytes h) = 16. Proof. reflexivity. Qed.

Lemma lfh_layout h : to_le 4 LFH_SIGNATURE ++ lfh_as_slice h =
  local_header (l_version h)
    (flag_word (gp_encrypted (l_flags h)) (gp_data_descriptor (l_flags h)) (gp_filename_unicode (l_flags h)))
    (l_compression h) (l_mod_time h) (l_mod_date h) (l_crc h) (l_compressed_size h) (l_uncompressed_size h)
    (l_file_name_length h) (l_extra_field_length h).
Proof.
  unfold local_header, record, lfh_as_slice, gp_as_slice. cbn [map concat fst snd].
  rewrite !le_to_le, gp_value_word, app_nil_r. reflexivity.
Qed.
Lemma cdr_layout h : to_le 4 CDH_SIGNATURE ++ cdr_as_slice h =
  central_header (c_v_made_by h) (c_v_needed h)
    (flag_word (gp_encrypted (c_flags h)) (gp_data_descriptor (c_flags h)) (gp_filename_unicode (c_flags h)))
    (c_compression h) (c_mod_time h) (c_mod_date h) (c_crc h) (c_compressed_size h) (c_uncompressed_size h)
    (c_file_name_length h) (c_extra_field_length h) (c_file_comment_length h) (c_disk_start h)
    (c_inter_attr h) (c_exter_attr h) (c_lh_offset h).
Proof.
  unfold central_header, record, cdr_as_slice, gp_as_slice. cbn [map concat fst snd].
  rewrite !le_to_le, gp_value_word, app_nil_r. reflexivity.
Qed.
Lemma eocdr_layout h : to_le 4 EOCDR_SIGNATURE ++ eocdr_as_slice h =
  end_record (e_disk_num h) (e_start_cent_dir_disk h) (e_num_of_entries_disk h) (e_num_of_entries h)
    (e_size_cent_dir h) (e_cent_dir_offset h) (e_file_comm_length h).
Proof.
  unfold end_record, record, eocdr_as_slice. cbn [map concat fst snd]. rewrite !le_to_le, app_nil_r. reflexivity.
Qed.
Lemma z64_eocdr_layout h : z_size h = 44 -> to_le 4 ZIP64_EOCDR_SIGNATURE ++ z64_eocdr_as_bytes h =
  zip64_end_record (z_version_made_by h) (z_version_needed h) (z_disk_number h) (z_disk_number_start_of_cd h)
    (z_num_entries_on_disk h) (z_num_entries h) (z_directory_size h) (z_offset h).
Proof.
  intro E. unfold zip64_end_record, record, z64_eocdr_as_bytes. cbn [map concat fst snd].
  rewrite !le_to_le, app_nil_r, E. reflexivity.
Qed.
Lemma z64_eocdl_layout h : to_le 4 ZIP64_EOCDL_SIGNATURE ++ z64_eocdl_as_bytes h =
  zip64_end_locator (zl_disk h) (zl_relative_offset h) (zl_total_disks h).
Proof.
  unfold zip64_end_locator, record, z64_eocdl_as_bytes. cbn [map concat fst snd]. rewrite !le_to_le, app_nil_r. reflexivity.
Qed.

(** parsing always yields in-range fields *)
Ltac split_list v :=
  repeat (let b := fresh "b" in destruct v as [|b v]; [discriminate|]); destruct v; [|discriminate].

Lemma from_le_lt k v : (length v <= k)%nat -> from_le v < 256 ^ N.of_nat k.
Proof.
  intro H. eapply N.lt_le_trans; [apply from_le_bound|]. apply N.pow_le_mono_r; [lia|]. unfold len. lia.
Qed.
Lemma sub_length a b v : (length (sub a b v) <= b - a)%nat.
Proof. unfold sub. rewrite firstn_length. lia. Qed.
Lemma sub2 a v : from_le (sub a (2 + a) v) < 65536.
Proof. apply (from_le_lt 2). pose proof (sub_length a (2 + a) v). lia. Qed.
Lemma sub4 a v : from_le (sub a (4 + a) v) < 4294967296.
Proof. apply (from_le_lt 4). pose proof (sub_length a (4 + a) v). lia. Qed.
Lemma sub8 a v : from_le (sub a (8 + a) v) < 18446744073709551616.
Proof. apply (from_le_lt 8). pose proof (sub_length a (8 + a) v). lia. Qed.

Lemma lfh_from_ok v : lfh_ok (lfh_from v).
Proof. repeat split; cbn [lfh_from l_version l_compression l_mod_time l_mod_date l_crc l_compressed_size
  l_uncompressed_size l_file_name_length l_extra_field_length]; (apply sub2 || apply sub4). Qed.
Lemma cdr_from_ok v : cdr_ok (cdr_from v).
Proof. repeat split; cbn [cdr_from c_v_made_by c_v_needed c_compression c_mod_time c_mod_date c_crc c_compressed_size
  c_uncompressed_size c_file_name_length c_extra_field_length c_file_comment_length c_disk_start c_inter_attr
  c_exter_attr c_lh_offset]; (apply sub2 || apply sub4). Qed.
Lemma eocdr_from_ok v : eocdr_ok (eocdr_from v).
Proof. repeat split; cbn [eocdr_from e_disk_num e_start_cent_dir_disk e_num_of_entries_disk e_num_of_entries
  e_size_cent_dir e_cent_dir_offset e_file_comm_length]; (apply sub2 || apply sub4). Qed.
Lemma z64_eocdr_from_ok v : z64_eocdr_ok (z64_eocdr_from v).
Proof. repeat split; cbn [z64_eocdr_from z_size z_version_made_by z_version_needed z_disk_number
  z_disk_number_start_of_cd z_num_entries_on_disk z_num_entries z_directory_size z_offset];
  (apply sub2 || apply sub4 || apply sub8). Qed.
Lemma z64_eocdl_from_ok v : z64_eocdl_ok (z64_eocdl_from v).
Proof. repeat split; cbn [z64_eocdl_from zl_disk zl_relative_offset zl_total_disks]; (apply sub4 || apply sub8). Qed.

(** serialising a parsed record gives back the bytes *)
Lemma to_from2 a b : to_le 2 (from_le [a; b]) = [a; b].
Proof. exact (to_from_le [a; b]). Qed.
Lemma to_from4 a b c d : to_le 4 (from_le [a; b; c; d]) = [a; b; c; d].
Proof. exact (to_from_le [a; b; c; d]). Qed.
Lemma to_from8 a b c d e f g h : to_le 8 (from_le [a; b; c; d; e; f; g; h]) = [a; b; c; d; e; f; g; h].
Proof. exact (to_from_le [a; b; c; d; e; f; g; h]). Qed.

Lemma eocdr_bytes_roundtrip v : length v = 18%nat -> eocdr_as_slice (eocdr_from v) = v.
Proof.
  intro H. split_list v. unfold eocdr_as_slice, eocdr_from.
  cbn [sub firstn skipn Nat.sub e_disk_num e_start_cent_dir_disk e_num_of_entries_disk e_num_of_entries
       e_size_cent_dir e_cent_dir_offset e_file_comm_length].
  rewrite !to_from2, !to_from4. reflexivity.
Qed.
Lemma z64_eocdr_bytes_roundtrip v : length v = 52%nat -> z64_eocdr_as_bytes (z64_eocdr_from v) = v.
Proof.
  intro H. split_list v. unfold z64_eocdr_as_bytes, z64_eocdr_from.
  cbn [sub firstn skipn Nat.sub z_size z_version_made_by z_version_needed z_disk_number
       z_disk_number_start_of_cd z_num_entries_on_disk z_num_entries z_directory_size z_offset].
  rewrite !to_from2, !to_from4, !to_from8. reflexivity.
Qed.
Lemma z64_eocdl_bytes_roundtrip v : length v = 16%nat -> z64_eocdl_as_bytes (z64_eocdl_from v) = v.
Proof.
  intro H. split_list v. unfold z64_eocdl_as_bytes, z64_eocdl_from.
  cbn [sub firstn skipn Nat.sub zl_disk zl_relative_offset zl_total_disks].
  rewrite !to_from4, !to_from8. reflexivity.
Qed.

(** For the two records with a flag word: equal up to the bits the crate does not keep. *)
Lemma lfh_bytes_roundtrip v : length v = 26%nat ->
  gp_value (gp_from (from_le (sub 2 4 v))) = from_le (sub 2 4 v) -> lfh_as_slice (lfh_from v) = v.
Proof.
  intros H. split_list v. unfold lfh_as_slice, lfh_from, gp_as_slice.
  cbn [sub firstn skipn Nat.sub l_version l_flags l_compression l_mod_time l_mod_date l_crc l_compressed_size
  l_uncompressed_size l_file_name_length l_extra_field_length]. intro E. rewrite E.
  rewrite !to_from2, !to_from4. reflexivity.
Qed.
Lemma cdr_bytes_roundtrip v : length v = 42%nat ->
  gp_value (gp_from (from_le (sub 4 6 v))) = from_le (sub 4 6 v) -> cdr_as_slice (cdr_from v) = v.
Proof.
  intros H. split_list v. unfold cdr_as_slice, cdr_from, gp_as_slice.
  cbn [sub firstn skipn Nat.sub c_v_made_by c_v_needed c_flags c_compression c_mod_time c_mod_date c_crc c_compressed_size
  c_uncompressed_size c_file_name_length c_extra_field_length c_file_comment_length c_disk_start c_inter_attr
  c_exter_attr c_lh_offset]. intro E. rewrite E.
  rewrite !to_from2, !to_from4. reflexivity.
Qed.

(** compression ids *)
Lemma compression_roundtrip c : compression_try_from (compression_to c) = Ok c.
Proof. now destruct c. Qed.
Lemma compression_to_bound c : compression_to c < 65536.
Proof. destruct c; cbn; lia. Qed.
Lemma compression_from_ok v c : compression_try_from v = Ok c -> v = compression_to c.
Proof.
  unfold compression_try_from.
  repeat match goal with |- context [match ?x with _ => _ end] => destruct x end;
    intro H; inversion H; reflexivity.
Qed.
Lemma compression_from_other v : (forall c, v <> compression_to c) ->
  compression_try_from v = Err (CompressionNotSupported v).
Proof.
  intro H. destruct (compression_try_from v) eqn:E.
  - now apply compression_from_ok in E; elim (H a).
  - revert E. unfold compression_try_from.
    repeat match goal with |- context [match ?x with _ => _ end] => destruct x end;
    intro E; inversion E; reflexivity.
  - revert E. unfold compression_try_from.
    repeat match goal with |- context [match ?x with _ => _ end] => destruct x end;
    intro E; inversion E; reflexivity.
Qed.
Lemma compression_eqb_eq a b : compression_eqb a b = true <-> a = b.
Proof. destruct a, b; cbn; split; congruence. Qed.
Lemma attr_ids v : (attr_try_from v = Ok Unix <-> v = 3) /\ (v <> 3 -> attr_try_from v = Err (AttributeCompatibilityNotSupported v)) /\
  forall a, attr_to a = 3 /\ attr_try_from (attr_to a) = Ok a.
Proof.
  assert (R : v <> 3 -> attr_try_from v = Err (AttributeCompatibilityNotSupported v)) by (destruct v as [|[[]|[]|]]; try reflexivity; now intros []).
  split; [split; [|now intros ->]|split; [exact R|now intros []]]. intro H. destruct (N.eq_dec v 3) as [|NE]; [assumption|]. now rewrite R in H.
Qed.
