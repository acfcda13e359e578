(** The crate's own test suite, run on the model: each example is one of its tests, with the same files and the
    same expectations. (Tests with gigabytes or tens of thousands of entries are instances of C19 and C20.) *)
From Verif Require Import Base ZString ZDate Headers ExtraField Entry IO Locator Reader EntryReader StreamReader FsReader Writer Samples WriteSamples
  Fixtures Inflate SpecFormat SpecArchive BaseFacts ReadProofs.

(** src/tests/read/locator/mod.rs *)
Example search_one_byte_test :
  reverse_search_buffer [x00; x00; x00; x00; x00; x00] [x01] = None /\
  reverse_search_buffer [x02; x01; x00; x00; x00; x00] [x01] = Some 1.
Proof. split; reflexivity. Qed.
Example search_two_byte_test : reverse_search_buffer [x02; x01; x00; x00; x00; x00] [x02; x01] = Some 1.
Proof. reflexivity. Qed.
Example locator_empty_test : fst (eocdr_locate (cursor zip_empty)) = Ok 4.
Proof. vm_compute. reflexivity. Qed.
Lemma first_only h n : existsb (fun b => b2n b =? 0x50) (tl h) = false -> h <> [] -> forall p,
  found_at (le 4 0x06054b50) (h ++ repeat x41 n) p -> p = 0.
Proof.
  intros T H p (a & b & E & L). apply (f_equal (fun l => nth_error l (length a))) in E. rewrite (nth_error_app2 a) in E by lia.
  rewrite Nat.sub_diag in E. cbn in E. destruct a as [|y a]; [now subst p|exfalso]. cbn [length] in E. destruct h as [|z h]; [easy|].
  cbn [nth_error app tl] in *. destruct (nth_in_or_default (length a) (h ++ repeat x41 n) x41) as [I|D].
  - apply nth_error_nth with (d := x41) in E. rewrite E in I. apply in_app_iff in I as [I|I].
    + assert (X : existsb (fun b => b2n b =? 0x50) h = true) by (apply existsb_exists; exists x50; now split). congruence.
    + apply repeat_spec in I. discriminate I.
  - apply nth_error_nth with (d := x41) in E. rewrite E in D. discriminate D.
Qed.
Lemma locate_padded h n : (forall p, found_at (le 4 0x06054b50) (h ++ repeat x41 n) p -> p = 0) ->
  firstn 4 h = le 4 0x06054b50 -> len h + N.of_nat n <= 65557 -> fst (eocdr_locate (cursor (h ++ repeat x41 n))) = Ok 4.
Proof.
  intros F H L. destruct (located (cursor (h ++ repeat x41 n)) (Forall_nil _)) as (A & B & _ & _). cbn [cursor s_data] in A, B.
  destruct (B 0) as (q & Q).
  - exists [], (skipn 4 h ++ repeat x41 n). split; [|reflexivity]. rewrite <- H. cbn [app]. now rewrite app_assoc, firstn_skipn.
  - rewrite len_app. unfold len at 2. rewrite repeat_length. lia.
  - rewrite Q. f_equal. destruct (A q Q) as (A1 & A2 & _). apply F in A2. lia.
Qed.
Example locator_empty_max_comment_test : fst (eocdr_locate (cursor zip_max_comment)) = Ok 4.
Proof. apply locate_padded; [apply first_only; [reflexivity|discriminate]|reflexivity|]. rewrite N2Nat.id. discriminate. Qed.
Example locator_buffer_boundary_test : fst (eocdr_locate (cursor zip_buffer_boundary)) = Ok 4.
Proof. apply locate_padded; [apply first_only; [reflexivity|discriminate]|reflexivity|]. rewrite N2Nat.id. discriminate. Qed.

(** src/tests/read/zip64/mod.rs *)
Definition hello : bytes := [x48; x65; x6c; x6c; x6f; x20; x57; x6f; x72; x6c; x64; x21; x0a].
Example test_read_zip64_archive_mem :
  match mem_new cfg0 zip64_zip with
  | Ok m => match mem_reader_at m 0 with Ok (r, _) => fst (er_read_to_end flate r) | Err e => Err e | Panic p => Panic p end
  | Err e => Err e | Panic p => Panic p
  end = Ok hello.
Proof. vm_compute. reflexivity. Qed.
Example test_read_zip64_archive_stream :
  match fst (stream_next cfg0 (cursor zip64_zip)) with
  | Ok (Some x) => fst (er_read_to_end flate (rd_reader x))
  | Ok None => Ok [] | Err e => Err e | Panic p => Panic p
  end = Ok hello.
Proof. vm_compute. reflexivity. Qed.

(** src/tests/write/zip64/mod.rs *)
Definition new_entry (name : bytes) (c : compression) : zentry := entry_new (zs_from_string name) c.
Definition read_all (d : bytes) : res (list (res bytes * res bytes)) :=
  match mem_new cfg0 d with
  | Ok m => Ok (map (fun i => (match entry_at (m_file m) (N.of_nat i) with Some e => zs_as_str (en_filename (st_entry e)) | None => Err EntryIndexOutOfBounds end,
                               mem_read_entry flate m (N.of_nat i))) (seq 0 (length (f_entries (m_file m)))))
  | Err e => Err e | Panic p => Panic p
  end.
Definition file1 : bytes := [x66; x69; x6c; x65; x31].
Definition file2 : bytes := [x66; x69; x6c; x65; x32].
Example test_write_zip64_file :
  let '(xs, r, w) := run_archive flate []
    [OpForceZip64; OpWhole (new_entry file1 Stored) [x00; x00; x00; x00]; OpStream false (new_entry file2 Stored) [SWriteAll [x00; x00; x00; x00]] true] in
  Forall (fun x => snd x = Ok tt) xs /\ r = Ok tt /\
  read_all (w_bytes w) = Ok [(Ok file1, Ok [x00; x00; x00; x00]); (Ok file2, Ok [x00; x00; x00; x00])] /\
  match mem_new cfg0 (w_bytes w) with
  | Ok m => f_zip64 (m_file m) = true /\ option_map (fun e => en_extra (st_entry e)) (entry_at (m_file m) 0) = Some []
  | _ => False
  end.
Proof. vm_compute. repeat constructor. Qed.

(** src/tests/write/offset/mod.rs *)
Example basic :
  let '(x, w) := write_all (repeat x46 19) (zw_new []) in
  let '(y, w') := write_all (repeat x46 9) w in
  let '(z, w'') := write_all (repeat x42 9) w' in
  w_offset (zw_new []) = 0 /\ x = Ok tt /\ w_offset w = 19 /\ y = Ok tt /\ w_offset w' = 28 /\ z = Ok tt /\ w_offset w'' = 37.
Proof. vm_compute. repeat split. Qed.

(** src/tests/spec/date.rs; 1666544102 is 16:55:02 on 23 October 2022 *)
Definition original : instant := {| i_year := 2022; i_month := 10; i_day := 23; i_hour := 16; i_minute := 55; i_second := 2 |}.
Example date_conversion_test_chrono : match zd_from_chrono cfg0 original with Ok d => zd_as_chrono d = Some original | _ => False end.
Proof. vm_compute. reflexivity. Qed.
Example date_conversion_test :
  match zb_year cfg0 zdate_default 2000 with
  | Ok d => let d := zb_second (zb_minute (zb_hour (zb_day (zb_month d 9) 8) 7) 5) 4 in
    zd_year d = 2000%Z /\ zd_month d = 9 /\ zd_day d = 8 /\ zd_hour d = 7 /\ zd_minute d = 5 /\ zd_second d = 4
  | _ => False
  end.
Proof. vm_compute. repeat split. Qed.

(** src/tests/read/compression/mod.rs *)
Definition foo_bar : bytes := [x66; x6f; x6f; x20; x62; x61; x72].
Example stored_test : fst (er_read_to_end flate (er_new (cursor foo_bar) Stored (len foo_bar))) = Ok foo_bar.
Proof. vm_compute. reflexivity. Qed.
Example deflate_test : fst (er_read_to_end flate (er_new (cursor deflate_data) Deflate (len deflate_data))) = Ok foo_bar.
Proof. vm_compute. reflexivity. Qed.

(** tests/decompress_test.rs: every file of the archive holds what the file of that name holds *)
Definition sample_data : bytes := [x73; x61; x6d; x70; x6c; x65; x5f; x64; x61; x74; x61; x2f].
Definition alpha : bytes := sample_data ++ [x61; x6c; x70; x68; x61; x2f].
Definition numeric : bytes := sample_data ++ [x6e; x75; x6d; x65; x72; x69; x63; x2f].
Definition txt : bytes := [x2e; x74; x78; x74].
Definition b2f_name : bytes := alpha ++ [x62; x61; x63; x6b; x5f; x74; x6f; x5f; x66; x72; x6f; x6e; x74] ++ txt.
Definition f2b_name : bytes := alpha ++ [x66; x72; x6f; x6e; x74; x5f; x74; x6f; x5f; x62; x61; x63; x6b] ++ txt.
Definition forward_name : bytes := numeric ++ [x66; x6f; x72; x77; x61; x72; x64] ++ txt.
Definition reverse_name : bytes := numeric ++ [x72; x65; x76; x65; x72; x73; x65] ++ txt.
Definition expected : list (res bytes * res bytes) :=
  [(Ok sample_data, Ok []); (Ok numeric, Ok []); (Ok forward_name, Ok forward); (Ok reverse_name, Ok reverse);
   (Ok alpha, Ok []); (Ok f2b_name, Ok front_to_back); (Ok b2f_name, Ok back_to_front)].
Example decompress_store_zip_mem : read_all store_zip = Ok expected.
Proof. vm_compute. reflexivity. Qed.
Example decompress_deflate_zip_mem : read_all deflate_zip = Ok expected.
Proof. vm_compute. reflexivity. Qed.
Definition seek_all (d : bytes) : res (list (res bytes)) :=
  match file cfg0 (cursor d) with
  | (Ok f, s) => Ok (map (fun i => read_entry flate f (N.of_nat i) s) (seq 0 (length (f_entries f))))
  | (Err e, _) => Err e | (Panic p, _) => Panic p
  end.
Example decompress_store_zip_seek : seek_all store_zip = Ok (map snd expected).
Proof. vm_compute. reflexivity. Qed.
Example decompress_deflate_zip_seek : seek_all deflate_zip = Ok (map snd expected).
Proof. vm_compute. reflexivity. Qed.
Definition fs_all (d : bytes) : res (list (res bytes)) :=
  let fs := fun _ => Opens d [] in
  match fs_new cfg0 fs [] with
  | Ok x => Ok (map (fun i => fs_read_entry flate fs x (N.of_nat i)) (seq 0 (length (f_entries (x_file x)))))
  | Err e => Err e | Panic p => Panic p
  end.
Example decompress_store_zip_fs : fs_all store_zip = Ok (map snd expected).
Proof. vm_compute. reflexivity. Qed.
Example decompress_deflate_zip_fs : fs_all deflate_zip = Ok (map snd expected).
Proof. vm_compute. reflexivity. Qed.
Definition chinese : bytes := [xe4; xb8; xad; xe6; x96; x87; x2e; x74; x78; x74].
Definition gbk : bytes := [xd6; xd0; xce; xc4; x2e; x74; x78; x74].
Example decompress_zip_with_utf8_extra :
  match fst (file cfg0 (cursor utf8_extra_zip)) with
  | Ok f => map (fun e => (st_header_size e, zs_as_str (en_filename (st_entry e)), zs_alt (en_filename (st_entry e)))) (f_entries f)
  | _ => []
  end = [(93, Ok chinese, Some gbk)].
Proof. vm_compute. reflexivity. Qed.
Example check_empty_zip_seek : let '(_, r, w) := run_archive flate [] [] in
  r = Ok tt /\ exists f, fst (file cfg0 (cursor (w_bytes w))) = Ok f.
Proof. vm_compute. split; [reflexivity|eexists; reflexivity]. Qed.

(** tests/compress_test.rs *)
Definition file_list : list (bytes * bytes) := [(b2f_name, back_to_front); (f2b_name, front_to_back); (forward_name, forward); (reverse_name, reverse)].
Definition compress_to_mem (c : compression) : res (list (res bytes * res bytes)) :=
  let '(_, r, w) := run_archive flate [] (map (fun p => OpStream false (new_entry (fst p) c) [SWriteAll (snd p)] true) file_list) in
  match r with Ok _ => read_all (w_bytes w) | Err e => Err e | Panic p => Panic p end.
Example zip_store_in_out : compress_to_mem Stored = Ok (map (fun p => (Ok (fst p), Ok (snd p))) file_list).
Proof. vm_compute. reflexivity. Qed.
Example zip_decompress_in_out : compress_to_mem Deflate = Ok (map (fun p => (Ok (fst p), Ok (snd p))) file_list).
Proof. vm_compute. reflexivity. Qed.
Definition utf8_extra_in_out (o : wop) : res (list (res bytes * option bytes)) :=
  let '(_, r, w) := run_archive flate [] [o] in
  match mem_new cfg0 (w_bytes w) with
  | Ok m => Ok (map (fun e => (zs_as_str (en_filename (st_entry e)), zs_alt (en_filename (st_entry e)))) (f_entries (m_file m)))
  | Err e => Err e | Panic p => Panic p
  end.
Definition utf8_entry : zentry := entry_new (zs_new_with_alternative chinese gbk) Stored.
Example zip_utf8_extra_in_out_stream :
  utf8_extra_in_out (OpStream false utf8_entry [SWriteAll [x54; x65; x73; x74]] true) = Ok [(Ok chinese, Some gbk)].
Proof. vm_compute. reflexivity. Qed.
Example zip_utf8_extra_in_out_whole : utf8_extra_in_out (OpWhole utf8_entry [x54; x65; x73; x74]) = Ok [(Ok chinese, Some gbk)].
Proof. vm_compute. reflexivity. Qed.
